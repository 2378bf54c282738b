(** Property C97: angular separation in binary64. *)
From Coq Require Import Reals ZArith Lra Lia Psatz.
From Flocq Require Import Core.
From Verif Require Import PyMath L_PyMath M_ellipsoid M_haversine M_float M_floatenu M_floatgeo M_floathav Spec Spec_float Spec_hav P_float L_float P_rounding L_floatpi L_floathav P_stable P_roundgeo P_sphere.
From Verif Require L_vin3 L_ell L_aer L_ecef L_nvector.
Open Scope R_scope.
#[local] Instance prec53 : Prec_gt_0 53 := eq_refl.
#[local] Instance vexp : Valid_exp fexp64 := FLT_exp_valid (-1074) 53.

Lemma sep_same k lon0 lat0 lon1 lat1 deg : fl_anglesep k lon0 lat0 lon1 lat1 deg = fl_anglesep_meeus k lon0 lat0 lon1 lat1 deg.
Proof. unfold fl_anglesep, fl_anglesep_meeus. cbv zeta. cbn [fl_rad]. destruct (Rlt_dec _ 0) as [_|_]; [reflexivity|]. destruct (Rlt_dec 1 _); reflexivity. Qed.

(** Angles in radians. *)
Lemma rad_lat k lat deg : libm3_ok k -> double lat -> Rabs lat <= quarter deg ->
  let l := fl_rad (l_base (l_two k)) deg lat in double l /\ Rabs l <= PI / 2 /\ Rabs (l - as_rad deg lat) <= 48 / 10 * uu.
Proof.
  intros M D L. cbv zeta. destruct M as (M2 & _ & MR & _). destruct M2 as (MB & _). destruct MB as (_ & _ & _ & _ & AR & _ & _ & _ & _ & DR & _). pose proof uu_pos as U. pose proof L_vin3.pi_315 as P. pose proof PI_RGT_0 as P0. pose proof e300 as E3. unfold fl_rad, quarter, as_rad in *. destruct deg.
  - split; [apply DR|]. split; [now apply MR|]. specialize (AR lat D ltac:(lra)). change (lat * PI / 180) with (radians lat). apply Rle_trans with (1 := AR).
    assert (B : Rabs (radians lat) <= PI / 2) by (unfold radians, Rdiv; rewrite !Rabs_mult, (Rabs_pos_eq PI), (Rabs_pos_eq (/ 180)) by lra; assert (Rabs lat * PI <= 90 * PI) by (apply Rmult_le_compat_r; lra); lra).
    assert (3 * uu * Rabs (radians lat) <= 3 * uu * (315 / 200)) by (apply Rmult_le_compat_l; lra). set (e := / 10 ^ 300) in *. clearbody e. lra.
  - split; [exact D|]. split; [lra|]. rewrite Rminus_diag_eq, Rabs_R0 by reflexivity. lra.
Qed.
Lemma rad_lon k lon deg : libm3_ok k -> double lon -> Rabs lon <= full deg ->
  let n := fl_rad (l_base (l_two k)) deg lon in Rabs (n - as_rad deg lon) <= 20 * uu /\ Rabs (as_rad deg lon) <= 2 * PI.
Proof.
  intros M D L. cbv zeta. destruct M as (M2 & _). destruct M2 as (MB & _). destruct MB as (_ & _ & _ & _ & AR & _). pose proof uu_pos as U. pose proof L_vin3.pi_315 as P. pose proof PI_RGT_0 as P0. pose proof e300 as E3. unfold fl_rad, full, as_rad in *. destruct deg.
  - specialize (AR lon D ltac:(lra)). change (lon * PI / 180) with (radians lon). assert (B : Rabs (radians lon) <= 2 * PI) by (unfold radians, Rdiv; rewrite !Rabs_mult, (Rabs_pos_eq PI), (Rabs_pos_eq (/ 180)) by lra; assert (Rabs lon * PI <= 360 * PI) by (apply Rmult_le_compat_r; lra); lra). split; [|exact B]. apply Rle_trans with (1 := AR).
    assert (3 * uu * Rabs (radians lon) <= 3 * uu * (63 / 10)) by (apply Rmult_le_compat_l; lra). set (e := / 10 ^ 300) in *. clearbody e. lra.
  - split; [|exact L]. rewrite Rminus_diag_eq, Rabs_R0 by reflexivity. lra.
Qed.

(** ** C97 *)
(** The formula never leaves the domain of sqrt and asin, antipodal points included. *)
Theorem C97_always_defined : forall k lon0 lat0 lon1 lat1 deg, libm3_ok k -> direction lon0 lat0 deg -> direction lon1 lat1 deg ->
  exists sep, fl_anglesep k lon0 lat0 lon1 lat1 deg = Some sep /\ fl_anglesep_meeus k lon0 lat0 lon1 lat1 deg = Some sep.
Proof.
  intros k lon0 lat0 lon1 lat1 deg M (Dn0 & Dl0 & L0 & N0) (Dn1 & Dl1 & L1 & N1). rewrite sep_same. unfold fl_anglesep_meeus. cbv zeta.
  destruct (rad_lat k lat0 deg M Dl0 L0) as (A1 & A2 & _). destruct (rad_lat k lat1 deg M Dl1 L1) as (B1 & B2 & _). destruct (rad_lon k lon0 deg M Dn0 N0) as (A3 & A4). destruct (rad_lon k lon1 deg M Dn1 N1) as (B3 & B4).
  set (l0 := fl_rad _ deg lat0) in *. set (l1 := fl_rad _ deg lat1) in *. set (n0 := fl_rad _ deg lon0) in *. set (n1 := fl_rad _ deg lon1) in *.
  assert (N : Rabs (n0 - n1) <= 1257 / 100). { assert (PI <= 31416 / 10000) by (pose proof pi_tight as T; unfold cpi in T; lra). pose proof uu_small. apply Rabs_le_inv in A3, A4, B3, B4. apply Rabs_le. lra. }
  pose proof (hsum_le k M l0 l1 n0 n1 A1 B1 A2 B2 N) as H. unfold hsum in H. destruct (Rlt_dec _ 0) as [Q|_]; [lra|]. unfold fl_sqrt. pose proof (rnd_sqrt_above _ (proj2 H)) as S. destruct (Rlt_dec 1 _) as [Q|_]; [lra|]. eexists. split; reflexivity.
Qed.

(** From the haversine to the angle. *)
Lemma hav_angle t t' d : 0 <= t <= PI -> 0 <= t' <= PI -> Rabs (sin (t / 2) ^ 2 - sin (t' / 2) ^ 2) <= d -> d <= / 1000000 ->
  Rabs (t - t') <= 2002 / 1000 * sqrt d /\ sin t * Rabs (t - t') <= 4004 / 1000 * d.
Proof.
  intros T T' H D. assert (D0 : 0 <= d) by (apply Rle_trans with (2 := H); apply Rabs_pos).
  assert (E : sin (t / 2) ^ 2 - sin (t' / 2) ^ 2 = sin ((t + t') / 2) * sin ((t - t') / 2)).
  { replace ((t + t') / 2) with (t / 2 + t' / 2) by field. replace ((t - t') / 2) with (t / 2 - t' / 2) by field. rewrite sin_plus, sin_minus. pose proof (sin2_cos2 (t / 2)) as P. pose proof (sin2_cos2 (t' / 2)) as P'. unfold Rsqr in *.
    replace (cos (t / 2) * cos (t / 2)) with (1 - sin (t / 2) * sin (t / 2)) in P by lra. set (s := sin (t / 2)) in *. set (s' := sin (t' / 2)) in *. set (c := cos (t / 2)) in *. set (c' := cos (t' / 2)) in *.
    assert (C : c * c = 1 - s * s) by (unfold c, s; pose proof (sin2_cos2 (t / 2)) as Q; unfold Rsqr in Q; lra). assert (C' : c' * c' = 1 - s' * s') by lra.
    replace ((s * c' + c * s') * (s * c' - c * s')) with (s * s * (c' * c') - c * c * (s' * s')) by ring. rewrite C, C'. ring. }
  rewrite E, Rabs_mult in H. set (w := (t - t') / 2) in *. assert (W : Rabs w <= PI / 2) by (unfold w; apply Rabs_le; lra).
  assert (SW : Rabs (sin w) = sin (Rabs w)). { pose proof PI_RGT_0. unfold Rabs at 2. destruct (Rcase_abs w) as [Q|Q]. - apply Rabs_le_inv in W. rewrite sin_neg. apply Rabs_left1. replace w with (- - w) by ring. rewrite sin_neg. assert (0 <= sin (- w)) by (apply sin_ge_0; lra). lra. - apply Rabs_le_inv in W. apply Rabs_pos_eq, sin_ge_0; lra. }
  assert (SS : sin (Rabs w) <= sin ((t + t') / 2)).
  { assert (R1 : Rabs w <= (t + t') / 2) by (unfold w; apply Rabs_le; lra). assert (R2 : (t + t') / 2 <= PI - Rabs w) by (assert (Rabs w <= PI - (t + t') / 2) by (unfold w; apply Rabs_le; lra); lra). pose proof (Rabs_pos w) as W0.
    destruct (Rle_lt_dec ((t + t') / 2) (PI / 2)) as [Q|Q]; [apply sin_incr_1; lra|]. rewrite <- (sin_PI_x ((t + t') / 2)). apply sin_incr_1; lra. }
  assert (S0 : 0 <= sin (Rabs w)) by (apply sin_ge_0; [apply Rabs_pos|pose proof PI_RGT_0; lra]).
  set (S := sin ((t + t') / 2)) in *. rewrite (Rabs_pos_eq S) in H by lra. rewrite SW in H. set (x := sin (Rabs w)) in *.
  assert (X2 : x ^ 2 <= d) by (apply Rle_trans with (2 := H); simpl; rewrite Rmult_1_r; apply Rmult_le_compat_r; lra).
  assert (X : x <= sqrt d) by (rewrite <- (sqrt_pow2 x) by lra; apply sqrt_le_1_alt; exact X2). assert (SD : sqrt d <= / 1000). { apply Rle_trans with (sqrt ((/ 1000) ^ 2)); [apply sqrt_le_1_alt; lra|rewrite sqrt_pow2; lra]. }
  assert (TT : Rabs (t - t') <= 1001 / 1000 * (2 * x)). { apply small_angle; [replace (t - t') with (2 * w) by (unfold w; field); rewrite Rabs_mult, (Rabs_pos_eq 2) by lra; lra| |lra]. fold w. rewrite SW. fold x. lra. }
  split; [lra|]. assert (ST : sin t <= 2 * S).
  { replace t with ((t + t') / 2 + w) by (unfold w; field). rewrite sin_plus. fold S. pose proof (COS_bound w) as C1. pose proof (COS_bound ((t + t') / 2)) as C2. set (cs := cos ((t + t') / 2)) in *.
    assert (A1 : S * cos w <= S * 1) by (apply Rmult_le_compat_l; lra). assert (A2 : Rabs (cs * sin w) <= 1 * x) by (rewrite Rabs_mult, SW; apply Rmult_le_compat; [apply Rabs_pos|exact S0|apply Rabs_le; lra|unfold x; lra]). apply Rabs_le_inv in A2. lra. }
  assert (SP : 0 <= sin t) by (apply sin_ge_0; lra). apply Rle_trans with (2 * S * (1001 / 1000 * (2 * x))); [apply Rmult_le_compat; try assumption; apply Rabs_pos|]. lra.
Qed.

(** Its error is at most 0.15 microradian (0.03 seconds of arc) anywhere, and 3e-14 divided by
    the sine of the separation: full precision away from coincident and antipodal points.  Missing for
    "stable all the way to exactly 0 deg": any relative accuracy at small separations, refuted below. *)
Theorem C97_accuracy_partial : forall k lon0 lat0 lon1 lat1 deg sep, libm3_ok k -> direction lon0 lat0 deg -> direction lon1 lat1 deg ->
  fl_anglesep k lon0 lat0 lon1 lat1 deg = Some sep ->
  let exact := as_rad deg (anglesep None lon0 lat0 lon1 lat1 deg false) in
  Rabs (as_rad deg sep - exact) <= 15 / 10 ^ 8 /\ sin exact * Rabs (as_rad deg sep - exact) <= 3 / 10 ^ 14.
Proof.
  intros k lon0 lat0 lon1 lat1 deg sep M (Dn0 & Dl0 & L0 & N0) (Dn1 & Dl1 & L1 & N1) R0. cbv zeta. rewrite sep_same in R0. unfold fl_anglesep_meeus in R0. cbv zeta in R0.
  destruct (rad_lat k lat0 deg M Dl0 L0) as (A1 & A2 & A5). destruct (rad_lat k lat1 deg M Dl1 L1) as (B1 & B2 & B5). destruct (rad_lon k lon0 deg M Dn0 N0) as (A3 & A4). destruct (rad_lon k lon1 deg M Dn1 N1) as (B3 & B4).
  set (l0 := fl_rad _ deg lat0) in *. set (l1 := fl_rad _ deg lat1) in *. set (n0 := fl_rad _ deg lon0) in *. set (n1 := fl_rad _ deg lon1) in *.
  pose proof pi_tight as PT. assert (P4 : PI <= 31416 / 10000) by (unfold cpi in PT; lra). clear PT. pose proof uu_small as U1. pose proof uu_pos as U0.
  assert (N : Rabs (n0 - n1) <= 1257 / 100). { apply Rabs_le_inv in A3, A4, B3, B4. apply Rabs_le. lra. }
  pose proof (hsum_le k M l0 l1 n0 n1 A1 B1 A2 B2 N) as H. pose proof (hsum_err k M l0 l1 n0 n1 A1 B1 A2 B2 N) as HE. unfold hsum in H, HE. set (s := fl_add _ _) in *.
  destruct (Rlt_dec s 0) as [Q|_] in R0; [discriminate|]. unfold fl_sqrt in R0. pose proof (rnd_sqrt_above s (proj2 H)) as S1. assert (S0 : 0 <= rnd (sqrt s)) by (apply Rle_trans with (rnd 0); [rewrite (rnd_id 0 d0); lra|apply rnd_le, sqrt_pos]).
  destruct (Rlt_dec 1 (rnd (sqrt s))) as [Q|_] in R0; [discriminate|]. 
  assert (RE : Rabs (rnd (sqrt s) - sqrt s) <= uu) by (apply rnd_2; rewrite Rabs_pos_eq by apply sqrt_pos; apply Rle_trans with (sqrt (2 ^ 2)); [apply sqrt_le_1_alt; lra|rewrite sqrt_pow2; lra]).
  assert (SQ : sqrt s ^ 2 = s) by (apply pow2_sqrt; lra). assert (SU : sqrt s <= 1 + uu). { apply Rle_trans with (sqrt ((1 + uu) ^ 2)); [apply sqrt_le_1_alt; nra|rewrite sqrt_pow2; lra]. } pose proof (sqrt_pos s) as SP.
  set (r := rnd (sqrt s)) in *. assert (R2 : Rabs (r ^ 2 - s) <= 201 / 100 * uu). { rewrite <- SQ. replace (r ^ 2 - sqrt s ^ 2) with ((r - sqrt s) * (r + sqrt s)) by ring. rewrite Rabs_mult. apply Rle_trans with (uu * (201 / 100)); [|lra]. apply Rmult_le_compat; try apply Rabs_pos; [exact RE|]. rewrite Rabs_pos_eq by lra. lra. }
  (* the exact value *)
  pose proof (C26_anglesep_is_angle None lon0 lat0 lon1 lat1 deg false (or_introl eq_refl)) as (X1 & X2 & _). set (ex := anglesep None lon0 lat0 lon1 lat1 deg false) in *.
  assert (T : 0 <= as_rad deg ex <= PI). { unfold as_rad, half in *. destruct deg; [|lra]. pose proof PI_RGT_0. split; [apply Rmult_le_pos; [apply Rmult_le_pos|]; lra|]. assert (ex * PI <= 180 * PI) by (apply Rmult_le_compat_r; lra). lra. }
  set (t := as_rad deg ex) in *. set (x0 := as_rad deg lat0) in *. set (x1 := as_rad deg lat1) in *. set (y0 := as_rad deg lon0) in *. set (y1 := as_rad deg lon1) in *.
  assert (V : sin (t / 2) ^ 2 = haversine (x0 - x1) + cos x0 * cos x1 * haversine (y0 - y1)). { rewrite L_nvector.hav_dot, <- X2. replace (cos t) with (cos (2 * (t / 2))) by (f_equal; field). rewrite cos_2a_sin. field. }
  assert (VE : Rabs (haversine (l0 - l1) + cos l0 * cos l1 * haversine (n0 - n1) - sin (t / 2) ^ 2) <= 345 / 10 * uu).
  { rewrite V. unfold haversine. set (g := (1 - cos (n0 - n1)) / 2). set (g' := (1 - cos (y0 - y1)) / 2). assert (G : 0 <= g <= 1) by (unfold g; pose proof (COS_bound (n0 - n1)); lra).
    assert (E1 : Rabs (cos (l0 - l1) - cos (x0 - x1)) <= 96 / 10 * uu). { apply Rle_trans with (1 := cos_lip _ _). apply Rabs_le_inv in A5, B5. apply Rabs_le. lra. }
    assert (E2 : Rabs (g - g') <= 20 * uu). { assert (Q : Rabs (cos (n0 - n1) - cos (y0 - y1)) <= 40 * uu) by (apply Rle_trans with (1 := cos_lip _ _); apply Rabs_le_inv in A3, B3; apply Rabs_le; lra). apply Rabs_le_inv in Q. unfold g, g'. apply Rabs_le. lra. }
    assert (E3 : Rabs (cos l0 - cos x0) <= 48 / 10 * uu) by (apply Rle_trans with (1 := cos_lip _ _); exact A5). assert (E4 : Rabs (cos l1 - cos x1) <= 48 / 10 * uu) by (apply Rle_trans with (1 := cos_lip _ _); exact B5).
    pose proof (COS_bound l0) as K0. pose proof (COS_bound l1) as K1. pose proof (COS_bound x0) as J0. pose proof (COS_bound x1) as J1.
    replace ((1 - cos (l0 - l1)) / 2 + cos l0 * cos l1 * g - ((1 - cos (x0 - x1)) / 2 + cos x0 * cos x1 * g')) with (- (cos (l0 - l1) - cos (x0 - x1)) / 2 + ((cos l0 - cos x0) * (cos l1 * g) + ((cos l1 - cos x1) * (cos x0 * g) + cos x0 * cos x1 * (g - g')))) by (field).
    assert (B : forall u v a b, Rabs u <= a -> Rabs v <= b -> Rabs (u * v) <= a * b) by (intros u v a b Hu Hv; rewrite Rabs_mult; apply Rmult_le_compat; try apply Rabs_pos; assumption).
    assert (O0 : Rabs g <= 1) by (apply Rabs_le; lra). assert (O1 : Rabs (cos l1) <= 1) by (apply Rabs_le; lra). assert (O2 : Rabs (cos x0) <= 1) by (apply Rabs_le; lra). assert (O3 : Rabs (cos x1) <= 1) by (apply Rabs_le; lra).
    pose proof (B _ _ _ _ E3 (B _ _ _ _ O1 O0)) as Q1. pose proof (B _ _ _ _ E4 (B _ _ _ _ O2 O0)) as Q2. pose proof (B _ _ _ _ (B _ _ _ _ O2 O3) E2) as Q3.
    apply Rabs_le_inv in E1, Q1, Q2, Q3. apply Rabs_le. lra. }
  (* the computed angle, before the last roundings *)
  set (t' := 2 * asin r). pose proof (asin_bound r) as AB. assert (AR : 0 <= asin r). { apply Rnot_lt_le. intros Q. pose proof (sin_lt_0_var (asin r) ltac:(pose proof PI_RGT_0; lra) Q) as Q'. rewrite sin_asin in Q' by lra. lra. }
  assert (T' : 0 <= t' <= PI) by (unfold t'; lra). assert (V' : sin (t' / 2) ^ 2 = r ^ 2) by (unfold t'; replace (2 * asin r / 2) with (asin r) by field; rewrite sin_asin by lra; reflexivity).
  assert (DD : Rabs (sin (t / 2) ^ 2 - sin (t' / 2) ^ 2) <= 47 * uu). { rewrite V'. apply Rabs_le_inv in HE, R2, VE. apply Rabs_le. lra. }
  destruct (hav_angle t t' (47 * uu) T T' DD ltac:(lra)) as (F1 & F2). 
  (* last roundings *)
  destruct M as (M2 & _ & _ & MA & _). specialize (MA r (rnd_double _) (conj S0 S1)). set (q := l_asin k r) in *.
  assert (Z : Rabs (fl_mul 2 q - 2 * q) <= 2 * uu) by (apply rnd_4; apply Rabs_le_inv in MA; apply Rabs_le; lra). set (z := fl_mul 2 q) in *.
  assert (ZT : Rabs (z - t') <= 10 * uu) by (unfold t'; apply Rabs_le_inv in MA, Z; apply Rabs_le; lra).
  assert (FIN : Rabs (as_rad deg sep - t') <= 20 * uu).
  { injection R0 as <-. destruct deg; [|cbn [as_rad]; lra]. pose proof M2 as (_ & _ & _ & _ & _ & _ & _ & MD & _). assert (Z4 : Rabs z <= 32 / 10) by (apply Rabs_le_inv in ZT; apply Rabs_le; lra). 
    assert (ZZ : Rabs (z - z) <= 0 * uu) by (rewrite Rminus_diag_eq, Rabs_R0 by reflexivity; lra). pose proof (deg_err (l_two k) true z z 0 M2 (rnd_double _) ltac:(lra) ltac:(lra) ZZ Z4) as DE. cbv iota in DE.
    change (l_degrees (l_two k) z) with (if true then l_degrees (l_two k) z else z) in *. assert (RL : Rabs (as_rad true (l_degrees (l_two k) z) - as_rad true (deg_out true z)) <= (0 + 3 * Rabs z + 1 / 10) * uu) by (apply rad_lin; exact DE).
    replace (as_rad true (deg_out true z)) with z in RL by (unfold as_rad, deg_out, degrees; field; apply PI_neq0). assert (RL' : Rabs (as_rad true (l_degrees (l_two k) z) - z) <= 98 / 10 * uu) by (apply Rle_trans with (1 := RL); apply Rmult_le_compat_r; lra).
    apply Rabs_le_inv in RL', ZT. apply Rabs_le. lra. }
  assert (TOT : Rabs (as_rad deg sep - t) <= Rabs (t - t') + 20 * uu). { replace (as_rad deg sep - t) with ((as_rad deg sep - t') + - (t - t')) by ring. apply Rle_trans with (1 := Rabs_triang _ _). rewrite Rabs_Ropp. lra. }
  assert (UB : uu <= 11103 / 10 ^ 20) by (unfold uu; lra). split.
  - assert (SB : sqrt (47 * uu) <= 73 / 10 ^ 9). { apply Rle_trans with (sqrt ((73 / 10 ^ 9) ^ 2)); [apply sqrt_le_1_alt; lra|rewrite sqrt_pow2; lra]. } lra.
  - assert (ST : 0 <= sin t <= 1) by (split; [apply sin_ge_0; lra|apply SIN_bound]). apply Rle_trans with (sin t * (Rabs (t - t') + 20 * uu)); [apply Rmult_le_compat_l; lra|]. rewrite Rmult_plus_distr_l. assert (sin t * (20 * uu) <= 1 * (20 * uu)) by (apply Rmult_le_compat_r; lra). lra.
Qed.

(** Exchanging the points changes nothing, to the last bit. *)
Theorem C97_symmetric : forall k lon0 lat0 lon1 lat1 deg, libm3_ok k -> direction lon0 lat0 deg -> direction lon1 lat1 deg ->
  fl_anglesep k lon0 lat0 lon1 lat1 deg = fl_anglesep k lon1 lat1 lon0 lat0 deg.
Proof.
  intros k lon0 lat0 lon1 lat1 deg M (Dn0 & Dl0 & L0 & N0) (Dn1 & Dl1 & L1 & N1). rewrite !sep_same. unfold fl_anglesep_meeus. cbv zeta.
  destruct (rad_lat k lat0 deg M Dl0 L0) as (A1 & A2 & _). destruct (rad_lat k lat1 deg M Dl1 L1) as (B1 & B2 & _). destruct (rad_lon k lon0 deg M Dn0 N0) as (A3 & A4). destruct (rad_lon k lon1 deg M Dn1 N1) as (B3 & B4).
  set (l0 := fl_rad _ deg lat0) in *. set (l1 := fl_rad _ deg lat1) in *. set (n0 := fl_rad _ deg lon0) in *. set (n1 := fl_rad _ deg lon1) in *.
  assert (N : Rabs (n0 - n1) <= 1257 / 100). { assert (PI <= 31416 / 10000) by (pose proof pi_tight as T; unfold cpi in T; lra). pose proof uu_small. apply Rabs_le_inv in A3, A4, B3, B4. apply Rabs_le. lra. }
  destruct (sub_l l0 l1 A2 B2) as (_ & SL). destruct (sub_n n0 n1 N) as (_ & SN).
  assert (OPP : forall x y, fl_sub y x = - fl_sub x y) by (intros x y; unfold fl_sub; rewrite <- rnd_opp; f_equal; ring).
  assert (EV : forall x, double x -> Rabs x <= 13 -> fl_haversine k (- x) = fl_haversine k x) by (intros x D B; unfold fl_haversine; rewrite (cosr k M x D B), (cosr k M (- x) (double_opp _ D)) by (rewrite Rabs_Ropp; exact B); now rewrite cos_neg).
  rewrite (OPP l0 l1), (OPP n0 n1), !EV by (assumption || apply rnd_double).
  replace (fl_mul (l_cos (l_base (l_two k)) l1) (l_cos (l_base (l_two k)) l0)) with (fl_mul (l_cos (l_base (l_two k)) l0) (l_cos (l_base (l_two k)) l1)) by (unfold fl_mul; f_equal; ring). reflexivity.
Qed.
(** A direction is at distance zero from itself. *)
Theorem C97_coincident : forall k lon lat, libm3_ok k -> direction lon lat false -> fl_anglesep k lon lat lon lat false = Some 0.
Proof.
  intros k lon lat M (Dn & Dl & L & N). rewrite sep_same. unfold fl_anglesep_meeus. cbn [fl_rad]. cbv zeta. pose proof d0 as Z0.
  assert (S0 : forall x, fl_sub x x = 0) by (intros x; unfold fl_sub; replace (x - x) with 0 by ring; apply rnd_id, Z0). rewrite !S0.
  assert (H0 : fl_haversine k 0 = 0) by (unfold fl_haversine, fl_sub, fl_div; rewrite (cosr k M 0 Z0) by (rewrite Rabs_R0; lra); rewrite cos_0, (rnd_id 1 d1); replace (1 - 1) with 0 by ring; rewrite (rnd_id 0 Z0); replace (0 / 2) with 0 by field; apply rnd_id, Z0).
  rewrite H0. unfold fl_add, fl_mul, fl_sqrt. rewrite Rmult_0_r, (rnd_id 0 Z0), Rplus_0_r, (rnd_id 0 Z0). destruct (Rlt_dec 0 0) as [Q|_]; [lra|]. rewrite sqrt_0, (rnd_id 0 Z0). destruct (Rlt_dec 1 0) as [Q|_]; [lra|].
  destruct M as (_ & _ & _ & _ & MZ). rewrite MZ, Rmult_0_r, (rnd_id 0 Z0). reflexivity.
Qed.

(** "Meeus haversine method is stable all the way to exactly 0 deg" is false of this
    formula: two directions up to 7.4 nanoradians apart (4.7 cm on the Earth's surface) get separation 0. *)
Theorem C97_stable_to_zero_refuted : forall k t, libm3_ok k -> double t -> 0 < t <= / 2 ^ 27 ->
  direction 0 0 false /\ direction 0 t false /\ direction t 0 false /\
  anglesep None 0 0 0 t false false = t /\ fl_anglesep k 0 0 0 t false = Some 0 /\
  anglesep None 0 0 t 0 false false = t /\ fl_anglesep k 0 0 t 0 false = Some 0.
Proof.
  intros k t M Dt Ht. pose proof d0 as Z0. pose proof PI_RGT_0 as P0. pose proof L_vin3.pi_31 as P3. assert (TB : 0 < t <= / 1000000) by lra.
  assert (AB : Rabs t = t) by (apply Rabs_pos_eq; lra). assert (A0 : Rabs 0 = 0) by apply Rabs_R0.
  split; [unfold direction, quarter, full; rewrite A0; repeat (split; [assumption|]); lra|]. split; [unfold direction, quarter, full; rewrite A0, AB; repeat (split; [assumption|]); lra|]. split; [unfold direction, quarter, full; rewrite A0, AB; repeat (split; [assumption|]); lra|].
  assert (EX : 2 * asin (sqrt ((1 - cos t) / 2)) = t). { rewrite L_nvector.half_angle by apply COS_bound. apply acos_cos. lra. }
  assert (CZ : l_cos (l_base (l_two k)) 0 = 1) by (rewrite (cosr k M 0 Z0) by (rewrite A0; lra); rewrite cos_0; apply rnd_id, d1).
  assert (CT : l_cos (l_base (l_two k)) (- t) = 1 /\ l_cos (l_base (l_two k)) t = 1).
  { assert (C : rnd (cos t) = 1). { apply Rle_antisym; [apply rnd_11, COS_bound|]. unfold rnd. apply round_N_ge_midp; [exact vexp|exact d1|].
      assert (PR : pred radix2 fexp64 1 = 1 - uu). { replace 1 with (bpow radix2 0) by reflexivity. rewrite pred_bpow. replace (bpow radix2 (fexp64 0)) with uu by (unfold uu; cbn; lra). reflexivity. }
      rewrite PR. pose proof (pre_cos_bound t 0 ltac:(lra) ltac:(lra)) as (Q & _). unfold cos_approx, cos_term in Q. simpl in Q. assert (t * t <= / 2 ^ 27 * / 2 ^ 27) by (apply Rmult_le_compat; lra). unfold uu. lra. }
    split; [rewrite (cosr k M (- t) (double_opp _ Dt)) by (rewrite Rabs_Ropp, AB; lra); rewrite cos_neg; exact C|rewrite (cosr k M t Dt) by (rewrite AB; lra); exact C]. }
  destruct CT as (CT1 & CT2). assert (H1 : forall x, l_cos (l_base (l_two k)) x = 1 -> fl_haversine k x = 0) by (intros x Q; unfold fl_haversine, fl_sub, fl_div; rewrite Q; replace (1 - 1) with 0 by ring; rewrite (rnd_id 0 Z0); replace (0 / 2) with 0 by field; apply rnd_id, Z0).
  assert (ST : fl_sub 0 t = - t) by (unfold fl_sub; replace (0 - t) with (- t) by ring; apply rnd_id, double_opp, Dt). assert (S0 : fl_sub 0 0 = 0) by (unfold fl_sub; replace (0 - 0) with 0 by ring; apply rnd_id, Z0).
  assert (END : forall p, fl_add 0 (fl_mul p 0) = 0) by (intros p; unfold fl_add, fl_mul; rewrite Rmult_0_r, (rnd_id 0 Z0), Rplus_0_r; apply rnd_id, Z0).
  assert (OUT : (if Rlt_dec 0 0 then None else let r := fl_sqrt 0 in if Rlt_dec 1 r then None else let sep_rad := fl_mul 2 (l_asin k r) in Some sep_rad) = Some 0).
  { destruct (Rlt_dec 0 0) as [Q|_]; [lra|]. cbv zeta. unfold fl_sqrt. rewrite sqrt_0, (rnd_id 0 Z0). destruct (Rlt_dec 1 0) as [Q|_]; [lra|]. destruct M as (_ & _ & _ & _ & MZ). rewrite MZ. unfold fl_mul. rewrite Rmult_0_r, (rnd_id 0 Z0). reflexivity. }
  assert (ONE : fl_mul 1 1 = 1) by (unfold fl_mul; rewrite Rmult_1_r; apply rnd_id, d1).
  split; [|split; [|split]].
  - unfold anglesep, anglesep_meeus, haversine. cbn [rad_in deg_out]. replace (0 - t) with (- t) by ring. rewrite cos_neg. replace (0 - 0) with 0 by ring. rewrite cos_0. replace ((1 - cos t) / 2 + 1 * cos t * ((1 - 1) / 2)) with ((1 - cos t) / 2) by field. exact EX.
  - rewrite sep_same. unfold fl_anglesep_meeus. cbn [fl_rad]. cbv zeta. rewrite ST, S0, (H1 _ CT1), (H1 _ CZ), END. exact OUT.
  - unfold anglesep, anglesep_meeus, haversine. cbn [rad_in deg_out]. replace (0 - t) with (- t) by ring. rewrite cos_neg. replace (0 - 0) with 0 by ring. rewrite cos_0. replace ((1 - 1) / 2 + 1 * 1 * ((1 - cos t) / 2)) with ((1 - cos t) / 2) by field. exact EX.
  - rewrite sep_same. unfold fl_anglesep_meeus. cbn [fl_rad]. cbv zeta. rewrite ST, S0, (H1 _ CT1), (H1 _ CZ), END. exact OUT.
Qed.

(** A library that rounds correctly satisfies the assumptions, and antipodal points are allowed. *)
Definition libm3_rounding : libm3 := {| l_two := libm2_rounding; l_asin := fun x => rnd (asin x) |}.
Lemma libm3_rounding_ok : libm3_ok libm3_rounding.
Proof.
  unfold libm3_ok, libm3_rounding. cbn [l_two l_asin]. split; [exact libm2_rounding_ok|]. cbn [libm2_rounding l_base libm_correct l_cos l_radians]. split; [reflexivity|]. split; [|split].
  - intros x _ H. pose proof L_vin3.pi_31. apply Rle_trans with (cpi / 2); [|pose proof pi_tight as T; assert (0 < / 10 ^ 16) by (apply Rinv_0_lt_compat; apply pow_lt; lra); lra]. apply rnd_quarter. unfold radians, Rdiv. rewrite !Rabs_mult, (Rabs_pos_eq PI), (Rabs_pos_eq (/ 180)) by lra. assert (Rabs x * PI <= 90 * PI) by (apply Rmult_le_compat_r; lra). lra.
  - intros x _ H. pose proof (asin_bound x) as B. pose proof L_vin3.pi_315. pose proof uu_pos. apply Rle_trans with uu; [apply rnd_2, Rabs_le; lra|lra].
  - rewrite asin_0. apply rnd_id, d0.
Qed.
Example C97_nonvacuous : libm3_ok libm3_rounding /\ direction (-71) 42 true /\ direction 109 (-42) true /\ (exists sep, fl_anglesep libm3_rounding (-71) 42 109 (-42) true = Some sep) /\ double (/ 2 ^ 27).
Proof.
  assert (NEG : forall z, (Z.abs z < 2 ^ 53)%Z -> double (IZR z)) by exact double_int.
  assert (A : direction (-71) 42 true) by (unfold direction, quarter, full; split; [apply (NEG (-71)%Z); reflexivity|split; [apply (NEG 42%Z); reflexivity|split; apply Rabs_le; lra]]).
  assert (B : direction 109 (-42) true) by (unfold direction, quarter, full; split; [apply (NEG 109%Z); reflexivity|split; [apply (NEG (-42)%Z); reflexivity|split; apply Rabs_le; lra]]).
  split; [exact libm3_rounding_ok|]. split; [exact A|]. split; [exact B|]. split; [destruct (C97_always_defined _ _ _ _ _ _ libm3_rounding_ok A B) as (sep & E & _); exists sep; exact E|].
  unfold double. replace (/ 2 ^ 27) with (bpow radix2 (-27)) by (change (bpow radix2 (-27)) with (/ 134217728); lra). apply generic_format_bpow. unfold fexp64, FLT_exp. lia.
Qed.
