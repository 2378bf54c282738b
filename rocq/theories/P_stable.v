(** Property C94: nearby positions have nearby geodetic coordinates. *)
From Coq Require Import Reals Lra Lia Psatz.
From Verif Require Import PyMath L_PyMath M_ellipsoid M_ecef Spec L_ell.
From Verif Require L_ecef L_ecefsurj L_aer L_vin3.
Open Scope R_scope.

(** ** Specification *)
(** Smallest radius of curvature of the ellipsoid (the meridian at the equator). *)
Definition rho_min (ell : option Ellipsoid) : R := ell_b ell ^ 2 / ell_a ell.
(** The vertical at given coordinates, as a unit vector. *)
Definition vertical (lat lon : R) (deg : bool) : vec3 := unit_normal (as_rad deg lat) (as_rad deg lon).

Section S.
Variable ell : option Ellipsoid.
Hypothesis Hok : ell_ok ell.
Variable deg : bool.
Let a := ell_a ell. Let b := ell_b ell.
Let Hb : 0 < b. Proof. apply ell_pos, Hok. Qed.
Let Ha : b <= a. Proof. apply ell_pos, Hok. Qed.
Variables lat1 lon1 h1 lat2 lon2 h2 : R.
Let P1 := geodetic2ecef lat1 lon1 h1 ell deg.
Let P2 := geodetic2ecef lat2 lon2 h2 ell deg.
Let n1 := vertical lat1 lon1 deg.
Let n2 := vertical lat2 lon2 deg.
Let D := vdot n1 n2.

Lemma ap_b : 0 < b /\ b <= a. Proof. split; [exact Hb|exact Ha]. Qed.
Lemma w_bounds p : let w := hypot (a * cos p) (b * sin p) in 0 < w /\ w <= a /\ w ^ 2 = b ^ 2 + (a ^ 2 - b ^ 2) * cos p ^ 2.
Proof.
  cbv zeta. destruct ap_b as [B A]. pose proof (acbs_pos a b p B A) as W. pose proof (hypot_pow2 (a * cos p) (b * sin p)) as Q. pose proof (sin_pow2 p) as S. set (w := hypot (a * cos p) (b * sin p)) in *.
  assert (E : w ^ 2 = b ^ 2 + (a ^ 2 - b ^ 2) * cos p ^ 2) by (rewrite Q, !Rpow_mult_distr, S; ring).
  split; [exact W|]. split; [|exact E]. assert (C : cos p ^ 2 <= 1) by (pose proof (pow2_ge_0 (sin p)); lra). assert (F : 0 <= a ^ 2 - b ^ 2) by nra. assert ((a ^ 2 - b ^ 2) * cos p ^ 2 <= (a ^ 2 - b ^ 2) * 1) by (apply Rmult_le_compat_l; lra). nra.
Qed.
Lemma D_le : D <= 1. Proof. apply L_ecef.unit_dot_le1; apply L_ecef.unit_normal_unit. Qed.
(** How far apart the two tangent planes are. *)
Lemma core : exists T1 T2, rho_min ell * (1 - D) <= T1 /\ rho_min ell * (1 - D) <= T2 /\
  vdot (vsub P2 P1) n2 = h2 - h1 + T1 + h1 * (1 - D) /\ vdot (vsub P1 P2) n1 = h1 - h2 + T2 + h2 * (1 - D) /\
  vdot (vsub P2 P1) (vsub n2 n1) = T1 + T2 + (h1 + h2) * (1 - D).
Proof.
  pose proof D_le as DL. unfold P1, P2 in *. rewrite !(L_ecef.g2e_unfold ell Hok). cbv zeta. unfold D, n1, n2, vertical, rho_min in *. fold a b.
  set (p1 := as_rad deg lat1) in *. set (p2 := as_rad deg lat2) in *. set (l1 := as_rad deg lon1) in *. set (l2 := as_rad deg lon2) in *.
  destruct (w_bounds p1) as (W1 & W1a & W1q). destruct (w_bounds p2) as (W2 & W2a & W2q). set (w1 := hypot (a * cos p1) (b * sin p1)) in *. set (w2 := hypot (a * cos p2) (b * sin p2)) in *.
  unfold unit_normal, vdot, vsub in *. set (c1 := cos p1) in *. set (s1 := sin p1) in *. set (c2 := cos p2) in *. set (s2 := sin p2) in *.
  set (k1 := cos l1) in *. set (m1 := sin l1) in *. set (k2 := cos l2) in *. set (m2 := sin l2) in *.
  assert (K1 : k1 ^ 2 + m1 ^ 2 = 1) by (pose proof (sin_pow2 l1); unfold k1, m1; lra). assert (K2 : k2 ^ 2 + m2 ^ 2 = 1) by (pose proof (sin_pow2 l2); unfold k2, m2; lra).
  assert (S1 : s1 ^ 2 = 1 - c1 ^ 2) by (apply sin_pow2). assert (S2 : s2 ^ 2 = 1 - c2 ^ 2) by (apply sin_pow2).
  destruct ap_b as [B A]. assert (F : 0 <= a ^ 2 - b ^ 2) by nra.
  set (q := k1 * k2 + m1 * m2). set (Dd := c1 * k1 * (c2 * k2) + c1 * m1 * (c2 * m2) + s1 * s2) in *. assert (ED : Dd = c1 * c2 * q + s1 * s2) by (unfold Dd, q; ring).
  set (G := a ^ 2 * (c1 * c2 * q) + b ^ 2 * (s1 * s2)).
  assert (Q1 : q ^ 2 <= 1) by (assert (q ^ 2 + (k1 * m2 - m1 * k2) ^ 2 = 1) by (unfold q; replace ((k1 * k2 + m1 * m2) ^ 2 + (k1 * m2 - m1 * k2) ^ 2) with ((k1 ^ 2 + m1 ^ 2) * (k2 ^ 2 + m2 ^ 2)) by ring; rewrite K1, K2; ring); pose proof (pow2_ge_0 (k1 * m2 - m1 * k2)); lra).
  assert (WW : b ^ 2 + (a ^ 2 - b ^ 2) * Rabs (c1 * c2) <= w1 * w2).
  { set (t := Rabs (c1 * c2)). assert (T2 : t ^ 2 = c1 ^ 2 * c2 ^ 2) by (unfold t; rewrite pow2_abs; ring). assert (T0 : 0 <= t) by apply Rabs_pos. set (f := a ^ 2 - b ^ 2) in *.
    assert (SQ : (b ^ 2 + f * t) ^ 2 <= (w1 * w2) ^ 2). { replace ((w1 * w2) ^ 2) with (w1 ^ 2 * w2 ^ 2) by ring. rewrite W1q, W2q. assert (X : 2 * t <= c1 ^ 2 + c2 ^ 2). { unfold t. rewrite Rabs_mult. pose proof (pow2_ge_0 (Rabs c1 - Rabs c2)). rewrite <- (pow2_abs c1), <- (pow2_abs c2). lra. }
      assert (0 <= b ^ 2 * f) by (apply Rmult_le_pos; [apply pow2_ge_0|exact F]). replace ((b ^ 2 + f * t) ^ 2) with (b ^ 2 * b ^ 2 + b ^ 2 * f * (2 * t) + f ^ 2 * t ^ 2) by ring. rewrite T2. replace ((b ^ 2 + f * c1 ^ 2) * (b ^ 2 + f * c2 ^ 2)) with (b ^ 2 * b ^ 2 + b ^ 2 * f * (c1 ^ 2 + c2 ^ 2) + f ^ 2 * (c1 ^ 2 * c2 ^ 2)) by ring. assert (b ^ 2 * f * (2 * t) <= b ^ 2 * f * (c1 ^ 2 + c2 ^ 2)) by (apply Rmult_le_compat_l; lra). lra. }
    assert (0 < w1 * w2) by (apply Rmult_lt_0_compat; assumption). apply Rnot_lt_le. intros L. assert ((w1 * w2) ^ 2 < (b ^ 2 + f * t) ^ 2) by nra. lra. }
  assert (GG : b ^ 2 * (1 - Dd) <= w1 * w2 - G).
  { unfold G. replace (a ^ 2 * (c1 * c2 * q)) with (b ^ 2 * (c1 * c2 * q) + (a ^ 2 - b ^ 2) * (c1 * c2 * q)) by ring. assert (c1 * c2 * q <= Rabs (c1 * c2)). { assert (Rabs q <= 1) by (apply Rabs_le; nra). apply Rle_trans with (1 := Rle_abs _). rewrite (Rabs_mult (c1 * c2)). pose proof (Rabs_pos (c1 * c2)). nra. }
    assert ((a ^ 2 - b ^ 2) * (c1 * c2 * q) <= (a ^ 2 - b ^ 2) * Rabs (c1 * c2)) by (apply Rmult_le_compat_l; assumption). rewrite ED. lra. }
  assert (TT : forall w, 0 < w -> w <= a -> b ^ 2 / a * (1 - Dd) <= (w1 * w2 - G) / w).
  { intros w W0 Wa. assert (0 <= b ^ 2 * (1 - Dd)) by (apply Rmult_le_pos; [apply pow2_ge_0|lra]). apply Rle_trans with (b ^ 2 * (1 - Dd) / w).
    - replace (b ^ 2 / a * (1 - Dd)) with (b ^ 2 * (1 - Dd) / a) by (field; lra). apply Rmult_le_compat_l; [exact H|]. apply Rinv_le_contravar; lra.
    - apply Rmult_le_compat_r; [left; now apply Rinv_0_lt_compat|exact GG]. }
  assert (V1 : w1 ^ 2 = a ^ 2 * c1 ^ 2 * (k1 ^ 2 + m1 ^ 2) + b ^ 2 * s1 ^ 2) by (rewrite W1q, K1, S1; ring). assert (V2 : w2 ^ 2 = a ^ 2 * c2 ^ 2 * (k2 ^ 2 + m2 ^ 2) + b ^ 2 * s2 ^ 2) by (rewrite W2q, K2, S2; ring).
  assert (N1 : c1 ^ 2 * (k1 ^ 2 + m1 ^ 2) + s1 ^ 2 = 1) by (rewrite K1, S1; ring). assert (N2 : c2 ^ 2 * (k2 ^ 2 + m2 ^ 2) + s2 ^ 2 = 1) by (rewrite K2, S2; ring).
  assert (X11 : (a ^ 2 / w1 + h1) * c1 * k1 * (c1 * k1) + (a ^ 2 / w1 + h1) * c1 * m1 * (c1 * m1) + (b ^ 2 / w1 + h1) * s1 * s1 = w1 + h1).
  { transitivity ((a ^ 2 * c1 ^ 2 * (k1 ^ 2 + m1 ^ 2) + b ^ 2 * s1 ^ 2) / w1 + h1 * (c1 ^ 2 * (k1 ^ 2 + m1 ^ 2) + s1 ^ 2)); [field; lra|]. rewrite <- V1, N1. field. lra. }
  assert (X22 : (a ^ 2 / w2 + h2) * c2 * k2 * (c2 * k2) + (a ^ 2 / w2 + h2) * c2 * m2 * (c2 * m2) + (b ^ 2 / w2 + h2) * s2 * s2 = w2 + h2).
  { transitivity ((a ^ 2 * c2 ^ 2 * (k2 ^ 2 + m2 ^ 2) + b ^ 2 * s2 ^ 2) / w2 + h2 * (c2 ^ 2 * (k2 ^ 2 + m2 ^ 2) + s2 ^ 2)); [field; lra|]. rewrite <- V2, N2. field. lra. }
  assert (X12 : (a ^ 2 / w1 + h1) * c1 * k1 * (c2 * k2) + (a ^ 2 / w1 + h1) * c1 * m1 * (c2 * m2) + (b ^ 2 / w1 + h1) * s1 * s2 = G / w1 + h1 * Dd) by (unfold G, Dd, q; field; lra).
  assert (X21 : (a ^ 2 / w2 + h2) * c2 * k2 * (c1 * k1) + (a ^ 2 / w2 + h2) * c2 * m2 * (c1 * m1) + (b ^ 2 / w2 + h2) * s2 * s1 = G / w2 + h2 * Dd) by (unfold G, Dd, q; field; lra).
  exists ((w1 * w2 - G) / w1), ((w1 * w2 - G) / w2). split; [apply TT; lra|]. split; [apply TT; lra|].
  assert (Y1 : (w1 * w2 - G) / w1 = w2 - G / w1) by (field; lra). assert (Y2 : (w1 * w2 - G) / w2 = w1 - G / w2) by (field; lra). rewrite Y1, Y2.
  split; [|split]; lra.
Qed.
End S.

Lemma abs_bounds v w : Rabs v <= w -> - w <= v <= w.
Proof. intros H. pose proof (Rle_abs v). pose proof (Rle_abs (- v)) as Q. rewrite Rabs_Ropp in Q. lra. Qed.
Lemma dist_sym p q : vdist3 p q = vdist3 q p.
Proof. destruct p as [[p1 p2] p3], q as [[q1 q2] q3]. unfold vdist3, vnorm, vsub, vdot. f_equal. ring. Qed.
Lemma vert_unit lat lon deg : vnorm (vertical lat lon deg) = 1.
Proof. unfold vnorm, vertical. rewrite L_ecef.unit_normal_unit. apply sqrt_1. Qed.
Lemma vert_chord lat1 lon1 lat2 lon2 deg : vdist3 (vertical lat2 lon2 deg) (vertical lat1 lon1 deg) ^ 2 = 2 * (1 - vdot (vertical lat1 lon1 deg) (vertical lat2 lon2 deg)).
Proof.
  pose proof (L_ecef.unit_normal_unit (as_rad deg lat1) (as_rad deg lon1)) as A. pose proof (L_ecef.unit_normal_unit (as_rad deg lat2) (as_rad deg lon2)) as B. fold (vertical lat1 lon1 deg) in A. fold (vertical lat2 lon2 deg) in B.
  unfold vdist3. set (V1 := vertical lat1 lon1 deg) in *. set (V2 := vertical lat2 lon2 deg) in *. clearbody V1 V2. replace (vnorm (vsub V2 V1) ^ 2) with (vnorm (vsub V2 V1) * vnorm (vsub V2 V1)) by ring. rewrite L_aer.vnorm_sq. destruct V1 as [[x y] z], V2 as [[u v] w]. unfold vdot, vsub in *. lra.
Qed.

(** ** C94 *)
(** Heights differ by no more than the positions do. *)
Theorem C94_height : forall ell deg lat1 lon1 h1 lat2 lon2 h2, ell_ok ell -> - rho_min ell <= h1 -> - rho_min ell <= h2 ->
  Rabs (h1 - h2) <= vdist3 (geodetic2ecef lat1 lon1 h1 ell deg) (geodetic2ecef lat2 lon2 h2 ell deg).
Proof.
  intros ell deg lat1 lon1 h1 lat2 lon2 h2 Hok H1 H2.
  destruct (core ell Hok deg lat1 lon1 h1 lat2 lon2 h2) as (T1 & T2 & B1 & B2 & E1 & E2 & _). pose proof (D_le deg lat1 lon1 lat2 lon2) as DL.
  set (D := vdot _ _) in *. pose proof (L_aer.vcauchy (vsub (geodetic2ecef lat2 lon2 h2 ell deg) (geodetic2ecef lat1 lon1 h1 ell deg)) (vertical lat2 lon2 deg)) as C1. pose proof (L_aer.vcauchy (vsub (geodetic2ecef lat1 lon1 h1 ell deg) (geodetic2ecef lat2 lon2 h2 ell deg)) (vertical lat1 lon1 deg)) as C2.
  rewrite vert_unit, Rmult_1_r in C1, C2. rewrite E1 in C1. rewrite E2 in C2. fold (vdist3 (geodetic2ecef lat2 lon2 h2 ell deg) (geodetic2ecef lat1 lon1 h1 ell deg)) in C1. fold (vdist3 (geodetic2ecef lat1 lon1 h1 ell deg) (geodetic2ecef lat2 lon2 h2 ell deg)) in C2. rewrite dist_sym in C1.
  assert (0 <= (rho_min ell + h1) * (1 - D)) by (apply Rmult_le_pos; lra). assert (0 <= (rho_min ell + h2) * (1 - D)) by (apply Rmult_le_pos; lra). apply Rabs_le. lra.
Qed.
(** The verticals differ by at most the distance over the smallest radius of curvature at the
    mean height. *)
Theorem C94_vertical : forall ell deg lat1 lon1 h1 lat2 lon2 h2, ell_ok ell -> - rho_min ell <= (h1 + h2) / 2 ->
  (rho_min ell + (h1 + h2) / 2) * vdist3 (vertical lat1 lon1 deg) (vertical lat2 lon2 deg)
    <= vdist3 (geodetic2ecef lat1 lon1 h1 ell deg) (geodetic2ecef lat2 lon2 h2 ell deg).
Proof.
  intros ell deg lat1 lon1 h1 lat2 lon2 h2 Hok H.
  destruct (core ell Hok deg lat1 lon1 h1 lat2 lon2 h2) as (T1 & T2 & B1 & B2 & _ & _ & E). pose proof (vert_chord lat1 lon1 lat2 lon2 deg) as VC.
  pose proof (L_aer.vcauchy (vsub (geodetic2ecef lat2 lon2 h2 ell deg) (geodetic2ecef lat1 lon1 h1 ell deg)) (vsub (vertical lat2 lon2 deg) (vertical lat1 lon1 deg))) as C. rewrite E in C.
  fold (vdist3 (geodetic2ecef lat2 lon2 h2 ell deg) (geodetic2ecef lat1 lon1 h1 ell deg)) in C. fold (vdist3 (vertical lat2 lon2 deg) (vertical lat1 lon1 deg)) in C.
  rewrite (dist_sym (geodetic2ecef lat1 lon1 h1 ell deg)), (dist_sym (vertical lat1 lon1 deg)). set (D := vdot _ _) in *.
  assert (N : 0 <= vdist3 (vertical lat2 lon2 deg) (vertical lat1 lon1 deg)) by apply sqrt_pos. assert (M : 0 <= vdist3 (geodetic2ecef lat2 lon2 h2 ell deg) (geodetic2ecef lat1 lon1 h1 ell deg)) by apply sqrt_pos.
  set (n := vdist3 (vertical lat2 lon2 deg) (vertical lat1 lon1 deg)) in *. set (d := vdist3 (geodetic2ecef lat2 lon2 h2 ell deg) _) in *. clearbody n d D.
  destruct (Req_dec n 0) as [Z|Z]; [rewrite Z; lra|]. apply Rmult_le_reg_r with n; [lra|]. replace ((rho_min ell + (h1 + h2) / 2) * n * n) with ((rho_min ell + (h1 + h2) / 2) * n ^ 2) by ring. rewrite VC. lra.
Qed.
Lemma chord_sin t : 2 * (1 - cos t) = (2 * sin (t / 2)) ^ 2.
Proof. replace t with (2 * (t / 2)) at 1 by field. rewrite cos_2a_sin. ring. Qed.
(** Latitudes likewise, longitudes with the distances from the polar axis. *)
Theorem C94_latitude : forall ell deg lat1 lon1 h1 lat2 lon2 h2, ell_ok ell -> - rho_min ell <= (h1 + h2) / 2 ->
  Rabs lat1 <= quarter deg -> Rabs lat2 <= quarter deg ->
  (rho_min ell + (h1 + h2) / 2) * (2 * Rabs (sin ((as_rad deg lat1 - as_rad deg lat2) / 2)))
    <= vdist3 (geodetic2ecef lat1 lon1 h1 ell deg) (geodetic2ecef lat2 lon2 h2 ell deg).
Proof.
  intros ell deg lat1 lon1 h1 lat2 lon2 h2 Hok H L1 L2. apply Rle_trans with (2 := C94_vertical ell deg lat1 lon1 h1 lat2 lon2 h2 Hok H). apply Rmult_le_compat_l; [lra|]. rewrite dist_sym.
  assert (CP : forall l, Rabs l <= quarter deg -> 0 <= cos (as_rad deg l)). { intros l L. pose proof PI_RGT_0. apply abs_bounds in L. apply cos_ge_0; unfold as_rad, quarter in *; destruct deg; nra. }
  apply CP in L1. apply CP in L2. assert (N : 0 <= vdist3 (vertical lat2 lon2 deg) (vertical lat1 lon1 deg)) by apply sqrt_pos. pose proof (vert_chord lat1 lon1 lat2 lon2 deg) as VC.
  assert (Q : vdot (vertical lat1 lon1 deg) (vertical lat2 lon2 deg) <= cos (as_rad deg lat1 - as_rad deg lat2)).
  { unfold vertical, unit_normal, vdot. rewrite cos_minus. set (l1 := as_rad deg lon1). set (l2 := as_rad deg lon2). pose proof (COS_bound (l1 - l2)) as CB. rewrite cos_minus in CB.
    assert (0 <= cos (as_rad deg lat1) * cos (as_rad deg lat2)) by (apply Rmult_le_pos; assumption). assert (cos (as_rad deg lat1) * cos (as_rad deg lat2) * (cos l1 * cos l2 + sin l1 * sin l2) <= cos (as_rad deg lat1) * cos (as_rad deg lat2) * 1) by (apply Rmult_le_compat_l; lra). lra. }
  pose proof (chord_sin (as_rad deg lat1 - as_rad deg lat2)) as CS. assert (S : (2 * Rabs (sin ((as_rad deg lat1 - as_rad deg lat2) / 2))) ^ 2 <= vdist3 (vertical lat2 lon2 deg) (vertical lat1 lon1 deg) ^ 2) by (rewrite VC, Rpow_mult_distr, pow2_abs, <- Rpow_mult_distr, <- CS; lra).
  apply Rnot_lt_le. intros X. set (n := vdist3 _ _) in *. set (s := 2 * Rabs _) in *. clear - S X N. nra.
Qed.
Theorem C94_longitude : forall ell deg lat1 lon1 h1 lat2 lon2 h2, ell_ok ell ->
  let '(x1, y1, z1) := geodetic2ecef lat1 lon1 h1 ell deg in let '(x2, y2, z2) := geodetic2ecef lat2 lon2 h2 ell deg in
  Rabs lat1 <= quarter deg -> Rabs lat2 <= quarter deg -> - rho_min ell <= h1 -> - rho_min ell <= h2 ->
  sqrt (hypot x1 y1 * hypot x2 y2) * (2 * Rabs (sin ((as_rad deg lon1 - as_rad deg lon2) / 2))) <= vdist3 (x1, y1, z1) (x2, y2, z2).
Proof.
  intros ell deg lat1 lon1 h1 lat2 lon2 h2 Hok. rewrite !(L_ecef.g2e_unfold ell Hok). cbv zeta. destruct (ell_pos ell Hok) as [B A]. unfold rho_min. set (a := ell_a ell) in *. set (b := ell_b ell) in *.
  intros L1 L2 H1 H2. assert (CP : forall l, Rabs l <= quarter deg -> 0 <= cos (as_rad deg l)). { intros l L. pose proof PI_RGT_0. apply abs_bounds in L. apply cos_ge_0; unfold as_rad, quarter in *; destruct deg; nra. } apply CP in L1. apply CP in L2.
  assert (NP : forall p h, - (b ^ 2 / a) <= h -> 0 <= a ^ 2 / hypot (a * cos p) (b * sin p) + h).
  { intros p h H. destruct (w_bounds ell Hok p) as (W & Wa & _). fold a b in W, Wa. set (w := hypot _ _) in *. assert (a <= a ^ 2 / w) by (apply Rmult_le_reg_r with w; [exact W|]; unfold Rdiv; rewrite Rmult_assoc, Rinv_l by lra; nra). assert (b ^ 2 / a <= a) by (apply Rmult_le_reg_r with a; [lra|]; unfold Rdiv; rewrite Rmult_assoc, Rinv_l by lra; nra). lra. }
  pose proof (NP (as_rad deg lat1) h1 H1) as N1. pose proof (NP (as_rad deg lat2) h2 H2) as N2. set (g1 := _ + h1) in *. set (g2 := _ + h2) in *. set (z1 := (_ + h1) * _). set (z2 := (_ + h2) * _).
  set (c1 := cos (as_rad deg lat1)) in *. set (c2 := cos (as_rad deg lat2)) in *. set (l1 := as_rad deg lon1). set (l2 := as_rad deg lon2).
  assert (HY : forall p l, 0 <= p -> hypot (p * cos l) (p * sin l) = p). { intros p l Hp. unfold hypot. replace ((p * cos l) ^ 2 + (p * sin l) ^ 2) with (p ^ 2 * (cos l ^ 2 + sin l ^ 2)) by ring. replace (cos l ^ 2 + sin l ^ 2) with 1 by (pose proof (sin_pow2 l); lra). rewrite Rmult_1_r. now apply sqrt_pow2. }
  assert (P1 : 0 <= g1 * c1) by (apply Rmult_le_pos; assumption). assert (P2 : 0 <= g2 * c2) by (apply Rmult_le_pos; assumption). rewrite !HY by assumption. set (p1 := g1 * c1) in *. set (p2 := g2 * c2) in *.
  pose proof (chord_sin (l1 - l2)) as CS. unfold vdist3, vnorm, vsub, vdot. set (s := sin ((l1 - l2) / 2)) in *.
  assert (PP : 0 <= p1 * p2) by (apply Rmult_le_pos; assumption). replace (sqrt (p1 * p2) * (2 * Rabs s)) with (sqrt (p1 * p2 * (2 * s) ^ 2)) by (rewrite sqrt_mult by (try apply pow2_ge_0; assumption); f_equal; replace (2 * Rabs s) with (Rabs (2 * s)) by (rewrite Rabs_mult, Rabs_pos_eq; lra); rewrite <- (pow2_abs (2 * s)); apply sqrt_pow2, Rabs_pos).
  apply sqrt_le_1_alt. rewrite <- CS, cos_minus. pose proof (pow2_ge_0 (p1 - p2)) as Q1. pose proof (pow2_ge_0 (z1 - z2)) as Q2. pose proof (sin_pow2 l1) as T1. pose proof (sin_pow2 l2) as T2.
  replace ((p1 * cos l1 - p2 * cos l2) * (p1 * cos l1 - p2 * cos l2) + (p1 * sin l1 - p2 * sin l2) * (p1 * sin l1 - p2 * sin l2) + (z1 - z2) * (z1 - z2))
    with (p1 ^ 2 * (cos l1 ^ 2 + sin l1 ^ 2) + p2 ^ 2 * (cos l2 ^ 2 + sin l2 ^ 2) - 2 * (p1 * p2) * (cos l1 * cos l2 + sin l1 * sin l2) + (z1 - z2) ^ 2) by ring.
  rewrite T1, T2. lra.
Qed.
Lemma small_arc x : 0 <= x <= PI / 2 -> sin x <= 1 / 20 -> x <= 1001 / 1000 * sin x.
Proof.
  intros H S. assert (L : forall t, 0 <= t -> t <= 1 -> t - t ^ 3 / 6 <= sin t) by (intros t T0 T1; pose proof (L_vin3.pi_315); pose proof PI2_1; pose proof (sin_bound t 0 T0 ltac:(lra)) as Q; unfold sin_approx, sin_term in Q; simpl in Q; lra).
  assert (X : x <= 6 / 100). { apply Rnot_lt_le. intros X. assert (sin (6 / 100) < sin x) by (pose proof PI2_1; apply sin_increasing_1; lra). pose proof (L (6 / 100) ltac:(lra) ltac:(lra)). simpl in *. lra. }
  pose proof (L x ltac:(lra) ltac:(lra)). assert (x ^ 3 <= 36 / 10000 * x) by (simpl; nra). lra.
Qed.
Lemma small_angle t s : Rabs t <= PI -> 2 * Rabs (sin (t / 2)) <= s -> s <= 1 / 10 -> Rabs t <= 1001 / 1000 * s.
Proof.
  intros T H S. assert (E : Rabs (sin (t / 2)) = sin (Rabs t / 2)).
  { unfold Rabs in T |- * at 2. destruct (Rcase_abs t); [replace (- t / 2) with (- (t / 2)) by field; rewrite sin_neg; apply Rabs_left1|apply Rabs_pos_eq]; [apply Ropp_le_cancel; rewrite Ropp_0, <- sin_neg; apply sin_ge_0; lra|apply sin_ge_0; lra]. }
  rewrite E in H. pose proof (Rabs_pos t). pose proof (small_arc (Rabs t / 2) ltac:(lra) ltac:(lra)). lra.
Qed.
Lemma quarter_abs deg l : Rabs l <= quarter deg -> Rabs (as_rad deg l) <= PI / 2.
Proof. intros L. pose proof PI_RGT_0. apply abs_bounds in L. apply Rabs_le. unfold as_rad, quarter in *. destruct deg; [|lra]. split; nra. Qed.
(** In radians, for positions less than a tenth of the radius of curvature apart. *)
Theorem C94_angles : forall ell deg lat1 lon1 h1 lat2 lon2 h2, ell_ok ell -> - rho_min ell <= h1 -> - rho_min ell <= h2 ->
  Rabs lat1 <= quarter deg -> Rabs lat2 <= quarter deg ->
  let '(x1, y1, z1) := geodetic2ecef lat1 lon1 h1 ell deg in let '(x2, y2, z2) := geodetic2ecef lat2 lon2 h2 ell deg in
  let d := vdist3 (x1, y1, z1) (x2, y2, z2) in
  (forall c, 0 < c <= rho_min ell + (h1 + h2) / 2 -> d <= c / 10 -> Rabs (as_rad deg lat1 - as_rad deg lat2) <= 1001 / 1000 * (d / c)) /\
  (forall p, 0 < p <= hypot x1 y1 -> p <= hypot x2 y2 -> d <= p / 10 -> Rabs (as_rad deg lon1 - as_rad deg lon2) <= PI ->
     Rabs (as_rad deg lon1 - as_rad deg lon2) <= 1001 / 1000 * (d / p)).
Proof.
  intros ell deg lat1 lon1 h1 lat2 lon2 h2 Hok H1 H2 L1 L2. pose proof (C94_latitude ell deg lat1 lon1 h1 lat2 lon2 h2 Hok ltac:(lra) L1 L2) as A. pose proof (C94_longitude ell deg lat1 lon1 h1 lat2 lon2 h2 Hok) as B.
  destruct (geodetic2ecef lat1 lon1 h1 ell deg) as [[x1 y1] z1], (geodetic2ecef lat2 lon2 h2 ell deg) as [[x2 y2] z2]. cbv zeta. specialize (B L1 L2 H1 H2). set (d := vdist3 _ _) in *. clearbody d.
  assert (G : forall c t, 0 < c -> c * (2 * Rabs (sin (t / 2))) <= d -> d <= c / 10 -> Rabs t <= PI -> Rabs t <= 1001 / 1000 * (d / c)).
  { intros c t C Q S T. apply small_angle; [exact T| |]; apply Rmult_le_reg_l with c; try exact C; replace (c * (d / c)) with d by (field; lra); lra. }
  split.
  - intros c C S. apply G; [lra| |exact S|]; [apply Rle_trans with (2 := A); apply Rmult_le_compat_r; [pose proof (Rabs_pos (sin ((as_rad deg lat1 - as_rad deg lat2) / 2))); lra|lra]|].
    apply quarter_abs in L1. apply quarter_abs in L2. apply Rle_trans with (1 := Rabs_triang _ _). rewrite Rabs_Ropp. lra.
  - intros p P P2 S T. apply G; [lra| |exact S|exact T]. apply Rle_trans with (2 := B). apply Rmult_le_compat_r; [pose proof (Rabs_pos (sin ((as_rad deg lon1 - as_rad deg lon2) / 2))); lra|].
    rewrite <- (sqrt_pow2 p) by lra. apply sqrt_le_1_alt. simpl. rewrite Rmult_1_r. apply Rmult_le_compat; lra.
Qed.
(** Every position off the polar axis has geodetic coordinates, and its height is small when
    it is close to the ellipsoid, and not negative outside. *)
Theorem C94_every_position : forall ell deg x y z, ell_ok ell -> ell_a ell ^ 2 <= 3 / 2 * ell_b ell ^ 2 -> (x <> 0 \/ y <> 0) ->
  exists lat lon h, - quarter deg < lat < quarter deg /\ - half deg < lon <= half deg /\ geodetic2ecef lat lon h ell deg = (x, y, z) /\
  (1 <= x ^ 2 / ell_a ell ^ 2 + y ^ 2 / ell_a ell ^ 2 + z ^ 2 / ell_b ell ^ 2 -> 0 <= h) /\
  Rabs h <= 2 * ell_a ell * Rabs (x ^ 2 / ell_a ell ^ 2 + y ^ 2 / ell_a ell ^ 2 + z ^ 2 / ell_b ell ^ 2 - 1).
Proof.
  intros ell deg x y z Hok Hf Hxy. destruct (ell_pos ell Hok) as [Hb Ha].
  assert (UP : forall z, 0 <= z -> exists lat lon h, - quarter deg < lat < quarter deg /\ - half deg < lon <= half deg /\ geodetic2ecef lat lon h ell deg = (x, y, z) /\ (1 <= x ^ 2 / ell_a ell ^ 2 + y ^ 2 / ell_a ell ^ 2 + z ^ 2 / ell_b ell ^ 2 -> 0 <= h) /\ Rabs h <= 2 * ell_a ell * Rabs (x ^ 2 / ell_a ell ^ 2 + y ^ 2 / ell_a ell ^ 2 + z ^ 2 / ell_b ell ^ 2 - 1)).
  { clear z. intros z Hz. pose proof (hypot_pos x y Hxy) as HR.
    destruct (L_ecefsurj.foot_root (ell_a ell) (ell_b ell) Hb Ha (hypot x y) z HR Hz) as (t & Ht & Hft).
    assert (Hc : 0 < cos t) by (apply cos_gt_0; pose proof PI_RGT_0; lra).
    destruct (L_ecefsurj.foot_gives_geodetic _ _ Hb Ha _ _ t Hc Hft) as [H1 H2]. cbv zeta in *.
    set (p := atan (ell_a ell / ell_b ell * tan t)) in *. set (h := (hypot x y / cos t - ell_a ell) * _ / ell_b ell) in *. clearbody h.
    assert (Hp : - PI/2 < p < PI/2) by apply atan_bound.
    exists (deg_out deg p), (deg_out deg (atan2 y x)), h. split; [now apply L_ecefsurj.quarter_out|]. split; [apply L_ecefsurj.half_out, atan2_range|]. split.
    { rewrite (L_ecef.g2e_unfold ell Hok). cbv zeta. rewrite !L_ecefsurj.as_rad_deg_out. rewrite H1, H2. f_equal. f_equal; [apply hypot_cos_atan2|apply hypot_sin_atan2]. }
    pose proof (hypot_pow2 x y) as R2. destruct (w_bounds ell Hok p) as (W & Wa & Wq). assert (Cp : 0 < cos p) by (apply cos_gt_0; lra). pose proof (sin_pow2 p) as Sp. set (a := ell_a ell) in *. set (b := ell_b ell) in *. set (w := hypot (a * cos p) (b * sin p)) in *. set (r := hypot x y) in *. set (c := cos p) in *. set (s := sin p) in *. clearbody w r c s.
    assert (A0 : 0 < a ^ 2) by nra. assert (B0 : 0 < b ^ 2) by nra. set (q := c ^ 2 / a ^ 2 + s ^ 2 / b ^ 2).
    assert (E : x ^ 2 / a ^ 2 + y ^ 2 / a ^ 2 + z ^ 2 / b ^ 2 - 1 = h * (2 / w + h * q)).
    { replace (x ^ 2 / a ^ 2 + y ^ 2 / a ^ 2) with (r ^ 2 / a ^ 2) by (rewrite R2; field; lra). rewrite <- H1, <- H2. unfold q.
      transitivity ((w ^ 2 + (a ^ 2 - b ^ 2) * 0) * 0 + (a ^ 2 * c ^ 2 + b ^ 2 * s ^ 2) / w ^ 2 + 2 * h * (c ^ 2 + s ^ 2) / w + h ^ 2 * (c ^ 2 / a ^ 2 + s ^ 2 / b ^ 2) - 1); [field; repeat split; lra|]. rewrite Sp. replace (a ^ 2 * c ^ 2 + b ^ 2 * (1 - c ^ 2)) with (w ^ 2) by (rewrite Wq; ring). field. repeat split; lra. }
    assert (N1 : a <= a ^ 2 / w) by (apply Rmult_le_reg_r with w; [exact W|]; unfold Rdiv; rewrite Rmult_assoc, Rinv_l by lra; nra).
    assert (HN : - (a ^ 2 / w) < h). { assert (0 < (a ^ 2 / w + h)); [|lra]. apply Rmult_lt_reg_r with c; [exact Cp|]. rewrite Rmult_0_l, H1. exact HR. }
    assert (Q0 : 0 <= q). { unfold q. apply Rplus_le_le_0_compat; apply Rmult_le_pos; try apply pow2_ge_0; left; apply Rinv_0_lt_compat; assumption. }
    assert (Q1 : q <= / b ^ 2). { unfold q. replace (/ b ^ 2) with (c ^ 2 * / b ^ 2 + s ^ 2 * / b ^ 2) by (rewrite Sp; ring). apply Rplus_le_compat; [|unfold Rdiv; lra]. apply Rmult_le_compat_l; [apply pow2_ge_0|]. apply Rinv_le_contravar; nra. }
    assert (Q2 : a ^ 2 * q <= 3 / 2). { apply Rle_trans with (a ^ 2 * / b ^ 2); [apply Rmult_le_compat_l; lra|]. apply Rmult_le_reg_r with (b ^ 2); [exact B0|]. rewrite Rmult_assoc, Rinv_l by lra. lra. }
    assert (IW : 0 < / w) by (apply Rinv_0_lt_compat; exact W). assert (IA : / a <= / w) by (apply Rinv_le_contravar; lra).
    assert (K : / (2 * a) <= 2 / w + h * q).
    { rewrite Rinv_mult. destruct (Rle_lt_dec 0 h) as [P|P]; [assert (0 <= h * q) by (apply Rmult_le_pos; assumption); unfold Rdiv; assert (0 < / a) by (apply Rinv_0_lt_compat; lra); lra|].
      assert (- (a ^ 2 / w) * q <= h * q) by (apply Rmult_le_compat_r; lra). assert (a ^ 2 / w * q <= 3 / 2 * / w) by (unfold Rdiv; replace (a ^ 2 * / w * q) with (a ^ 2 * q * / w) by ring; apply Rmult_le_compat_r; lra). unfold Rdiv in *. lra. }
    split. { intros S1. apply Rnot_lt_le. intros P. assert (0 < / (2 * a)) by (apply Rinv_0_lt_compat; lra). assert (h * (2 / w + h * q) < 0) by (set (k := 2 / w + h * q) in *; clearbody k; nra). lra. }
    rewrite E, Rabs_mult. assert (KA : / (2 * a) <= Rabs (2 / w + h * q)) by (apply Rle_trans with (1 := K); apply Rle_abs). pose proof (Rabs_pos h). apply Rle_trans with (2 * a * (Rabs h * / (2 * a))); [right; field; lra|]. apply Rmult_le_compat_l; [lra|]. apply Rmult_le_compat_l; assumption. }
  destruct (Rle_lt_dec 0 z) as [Hz|Hz]; [now apply UP|]. destruct (UP (- z) ltac:(lra)) as (la & lo & h & H1 & H2 & H3 & H5 & H4). replace ((- z) ^ 2) with (z ^ 2) in H5, H4 by ring. exists (- la), lo, h. split; [lra|]. split; [exact H2|]. split; [rewrite L_ecefsurj.g2e_neg by assumption; rewrite H3; f_equal; ring|]. split; assumption.
Qed.
(** On the Earth, from ten kilometres below the ellipsoid: a position error of d metres (up to
    600 km) changes the height by at most d and the latitude by at most d / 6 318 000 rad.
    The bound on the height is attained. *)
Theorem C94_earth : forall deg lat1 lon1 h1 lat2 lon2 h2, -10000 <= h1 -> -10000 <= h2 -> Rabs lat1 <= quarter deg -> Rabs lat2 <= quarter deg ->
  let d := vdist3 (geodetic2ecef lat1 lon1 h1 None deg) (geodetic2ecef lat2 lon2 h2 None deg) in
  Rabs (h1 - h2) <= d /\ (d <= 600000 -> Rabs (as_rad deg lat1 - as_rad deg lat2) <= d / 6318000).
Proof.
  intros deg lat1 lon1 h1 lat2 lon2 h2 H1 H2 L1 L2. cbv zeta. assert (R : 6335000 <= rho_min None) by (unfold rho_min, ell_a, ell_b; lra). assert (Hok : ell_ok None) by exact I. split; [apply C94_height; [exact Hok|lra|lra]|].
  pose proof (C94_angles None deg lat1 lon1 h1 lat2 lon2 h2 Hok ltac:(lra) ltac:(lra) L1 L2) as A. destruct (geodetic2ecef lat1 lon1 h1 None deg) as [[x1 y1] z1], (geodetic2ecef lat2 lon2 h2 None deg) as [[x2 y2] z2]. cbv zeta in A. destruct A as (A & _). intros D.
  apply Rle_trans with (1 := A 6325000 ltac:(lra) ltac:(lra)). assert (0 <= vdist3 (x1, y1, z1) (x2, y2, z2)) by apply sqrt_pos. lra.
Qed.
Example C94_height_attained : vdist3 (geodetic2ecef 42 (-71) 0 None true) (geodetic2ecef 42 (-71) 300 None true) = 300.
Proof.
  assert (Hok : ell_ok None) by exact I. apply Rle_antisym; [|pose proof (C94_height None true 42 (-71) 0 42 (-71) 300 Hok) as A; rewrite Rabs_left in A by lra; unfold rho_min, ell_a, ell_b in A; lra].
  rewrite (L_ecef.g2e_normal None Hok 42 (-71) 300). set (P := geodetic2ecef 42 (-71) 0 None true). pose proof (L_ecef.unit_normal_unit (as_rad true 42) (as_rad true (-71))) as U. destruct (unit_normal _ _) as [[u v] w]. destruct P as [[x y] z]. unfold vdist3, vnorm, vsub, vadd, vscale, vdot in *.
  replace ((x - (x + 300 * u)) * (x - (x + 300 * u)) + (y - (y + 300 * v)) * (y - (y + 300 * v)) + (z - (z + 300 * w)) * (z - (z + 300 * w))) with (300 ^ 2 * (u * u + v * v + w * w)) by ring. rewrite U, Rmult_1_r, sqrt_pow2; lra.
Qed.
