(** Two geodesics from the same point whose ends are close set out in nearly the same
    direction (continued). *)
From Coq Require Import Reals Ratan Lra Lia Psatz.
From Coquelicot Require Import Coquelicot.
From Verif Require Import PyMath Spec Spec_geodesic L_PyMath L_geodesic1 L_geodesic2 L_geodesic3 L_geodesic4 L_geodesic7 L_short1 L_short2 L_short3 L_short4 L_short5 L_short6 L_short7 L_short8.
From Verif Require L_vincenty2 L_nvector L_vin2 L_vin3 L_series2 L_aer.
Open Scope R_scope.

Lemma pi_lo3145 : PI < 3145 / 1000.
Proof.
  apply Rnot_le_lt; intros X. assert (C : cos (15725 / 10000) < 0).
  { replace (15725 / 10000) with (2 * (78625 / 100000)) by lra. rewrite cos_2a_sin. destruct (L_series2.sin_taylor (78625 / 100000)) as (th & Th & E). apply Rabs_le_between in Th.
    assert (S : 7073 / 10000 <= sin (78625 / 100000)) by (rewrite E; lra). nra. }
  pose proof (cos_ge_0 (15725 / 10000) ltac:(lra) ltac:(lra)). lra.
Qed.
Lemma lip_cos x y : Rabs (cos x - cos y) <= Rabs (x - y).
Proof. apply abs_of_sq; [apply Rabs_pos|]. rewrite pow2_abs. pose proof (chord_lon (x - y)) as CL. pose proof (sc1 (x - y)). pose proof (sc1 x). pose proof (sc1 y). pose proof (cos_minus x y) as CM. assert ((cos x - cos y) ^ 2 + (sin x - sin y) ^ 2 = (cos (x - y) - 1) ^ 2 + sin (x - y) ^ 2) by nra. pose proof (pow2_ge_0 (sin x - sin y)). lra. Qed.
Lemma lip_sin x y : Rabs (sin x - sin y) <= Rabs (x - y).
Proof. apply abs_of_sq; [apply Rabs_pos|]. rewrite pow2_abs. pose proof (chord_lon (x - y)) as CL. pose proof (sc1 (x - y)). pose proof (sc1 x). pose proof (sc1 y). pose proof (cos_minus x y) as CM. assert ((cos x - cos y) ^ 2 + (sin x - sin y) ^ 2 = (cos (x - y) - 1) ^ 2 + sin (x - y) ^ 2) by nra. pose proof (pow2_ge_0 (cos x - cos y)). lra. Qed.
Lemma sin_slack s d : 0 < s <= 28 / 10 -> 98 / 100 * s <= d <= s -> 0 < sin d <= 13 / 10 * sin s.
Proof.
  intros Hs Hd. pose proof pi_gt. destruct (sin_288 s ltac:(lra)) as [S1 S2]. split; [apply sin_gt_0; lra|].
  pose proof (lip_sin d s) as L. rewrite (Rabs_minus_sym d s), (Rabs_right (s - d)) in L by lra. apply Rabs_le_between in L. lra.
Qed.
(** |cos s p + sin s n - (cos s' p + sin s' n')| *)
Lemma dir_diff s s' x1 y1 z1 x2 y2 z2 x3 y3 z3 :
  x1 ^ 2 + y1 ^ 2 + z1 ^ 2 = 1 -> x3 ^ 2 + y3 ^ 2 + z3 ^ 2 = 1 -> 0 <= sin s ->
  sin s * vdist3 (x2, y2, z2) (x3, y3, z3) <= vdist3 (Qa x1 y1 z1 x2 y2 z2 s) (Qa x1 y1 z1 x3 y3 z3 s') + 2 * Rabs (s - s').
Proof.
  intros U1 U3 S0. pose proof (lip_cos s s') as LC. pose proof (lip_sin s s') as LS. set (h := Rabs (s - s')) in *. assert (H0 : 0 <= h) by apply Rabs_pos. set (D := vdist3 (Qa x1 y1 z1 x2 y2 z2 s) (Qa x1 y1 z1 x3 y3 z3 s')) in *. assert (D0 : 0 <= D) by apply vdist_pos.
  set (A := vscale (cos s - cos s') (x1, y1, z1)). set (B := vscale (sin s - sin s') (x3, y3, z3)). set (W := vsub (Qa x1 y1 z1 x2 y2 z2 s) (Qa x1 y1 z1 x3 y3 z3 s')).
  assert (NA : vnorm A <= h). { unfold A. rewrite vnorm_scale. replace (vnorm (x1, y1, z1)) with 1; [lra|]. unfold vnorm, vdot. rewrite <- sqrt_1. f_equal. lra. }
  assert (NB : vnorm B <= h). { unfold B. rewrite vnorm_scale. replace (vnorm (x3, y3, z3)) with 1; [lra|]. unfold vnorm, vdot. rewrite <- sqrt_1. f_equal. lra. }
  assert (E : vscale (sin s) (vsub (x2, y2, z2) (x3, y3, z3)) = vadd W (vadd (vscale (-1) A) (vscale (-1) B))). { unfold W, A, B, Qa, c_X, c_Y, c_Z, vadd, vscale, vsub. apply f_equal2; [apply f_equal2|]; ring. }
  assert (E1 : sin s * vdist3 (x2, y2, z2) (x3, y3, z3) = vnorm (vscale (sin s) (vsub (x2, y2, z2) (x3, y3, z3)))) by (rewrite vnorm_scale, Rabs_right by lra; reflexivity).
  rewrite E1, E. eapply Rle_trans; [apply L_aer.vnorm_triangle|]. change (vnorm W) with D. eapply Rle_trans; [apply Rplus_le_compat_l, L_aer.vnorm_triangle|]. rewrite !vnorm_scale. replace (Rabs (-1)) with 1 by (rewrite Rabs_left; lra). lra.
Qed.
(** from the direction on the sphere to the direction on the surface *)
Lemma tan_diff f x1 y1 z1 x2 y2 z2 c0 s1 x3 y3 z3 c3 s3 : 0 <= f <= 1 / 100 -> x1 ^ 2 + y1 ^ 2 + z1 ^ 2 = 1 -> z1 = c0 * sin s1 -> z2 = c0 * cos s1 -> z1 = c3 * sin s3 -> z3 = c3 * cos s3 ->
  vdist3 (c_tan f x1 y1 z1 x2 y2 z2 c0 s1 0) (c_tan f x1 y1 z1 x3 y3 z3 c3 s3 0) <= 103 / 100 * vdist3 (x2, y2, z2) (x3, y3, z3).
Proof.
  intros F U1 Z1 Z2 Z1' Z3. set (e2 := f * (2 - f)). assert (HE : 0 <= e2 <= 2 / 100) by (unfold e2; nra). set (u := ww e2 z1). assert (UL : 98 / 100 <= u) by apply (ww_lo e2 HE).
  assert (CU : c_u f c0 s1 0 = u). { rewrite (c_u_ww f z1 z2 c0 s1 F Z1 Z2). unfold zt. rewrite cos_0, sin_0. unfold u, e2. f_equal. ring. }
  assert (CU' : c_u f c3 s3 0 = u). { rewrite (c_u_ww f z1 z3 c3 s3 F Z1' Z3). unfold zt. rewrite cos_0, sin_0. unfold u, e2. f_equal. ring. }
  assert (T0 : c_th f x1 y1 x2 y2 c0 s1 0 = 0) by (unfold c_th; rewrite Rplus_0_r; ring). assert (T0' : c_th f x1 y1 x3 y3 c3 s3 0 = 0) by (unfold c_th; rewrite Rplus_0_r; ring).
  set (k := e2 / (1 + u)). assert (K0 : 0 <= k <= 2 / 100). { unfold k. split; [apply Rmult_le_pos; [lra|left; apply Rinv_0_lt_compat; lra]|]. apply Rmult_le_reg_r with (1 + u); [lra|]. unfold Rdiv at 1. rewrite Rmult_assoc, Rinv_l by lra. nra. }
  set (dx := x2 - x3). set (dy := y2 - y3). set (dz := z2 - z3). set (m := x1 * dy - y1 * dx). set (W := vdist3 (x2, y2, z2) (x3, y3, z3)).
  assert (W0 : 0 <= W) by apply vdist_pos. assert (W2 : W ^ 2 = dx ^ 2 + dy ^ 2 + dz ^ 2) by (unfold W; rewrite vdist_sq; reflexivity).
  assert (E : vsub (c_tan f x1 y1 z1 x2 y2 z2 c0 s1 0) (c_tan f x1 y1 z1 x3 y3 z3 c3 s3 0) = vscale (/ u) (dx + k * m * y1, dy - k * m * x1, (1 - f) * dz)).
  { unfold c_tan. rewrite CU, CU', T0, T0'. unfold c_g. rewrite CU, CU'. unfold rot, c_X, c_Y, c_X', c_Y', c_Z', c_s0, vsub, vscale. rewrite cos_0, sin_0. unfold m, dx, dy, dz, k. fold e2. apply f_equal2; [apply f_equal2|]; field; lra. }
  unfold vdist3 at 1. rewrite E, vnorm_scale. assert (I0 : 0 < / u) by (apply Rinv_0_lt_compat; lra). rewrite Rabs_right by lra. assert (I1 : / u <= 103 / 100). { apply Rmult_le_reg_r with u; [lra|]. rewrite Rinv_l by lra. lra. }
  apply Rmult_le_compat; [lra|apply sqrt_pos|exact I1|]. apply vnorm_le_sq; [exact W0|]. rewrite W2. unfold vdot.
  replace ((dx + k * m * y1) * (dx + k * m * y1) + (dy - k * m * x1) * (dy - k * m * x1) + (1 - f) * dz * ((1 - f) * dz)) with (dx ^ 2 + dy ^ 2 + (1 - f) ^ 2 * dz ^ 2 - k * m ^ 2 * (2 - k * (x1 ^ 2 + y1 ^ 2))) by (unfold m; ring).
  pose proof (pow2_ge_0 x1). pose proof (pow2_ge_0 y1). pose proof (pow2_ge_0 z1). pose proof (pow2_ge_0 m). pose proof (pow2_ge_0 dz). assert (0 <= k * m ^ 2 * (2 - k * (x1 ^ 2 + y1 ^ 2))) by (apply Rmult_le_pos; [apply Rmult_le_pos; lra|nra]). nra.
Qed.
(** the same at the other end *)
Lemma sq_part k x : 0 <= k <= 1 -> 0 <= x -> 0 <= k * x <= x. Proof. intros. nra. Qed.
Lemma rot_dist th p q : vdist3 (rot th p) (rot th q) = vdist3 p q.
Proof.
  unfold vdist3, vnorm. f_equal. destruct p as [[x y] z], q as [[x' y'] z']. unfold rot, vsub, vdot. pose proof (sc1 th) as S.
  replace ((cos th * x - sin th * y - (cos th * x' - sin th * y')) * (cos th * x - sin th * y - (cos th * x' - sin th * y')) + (sin th * x + cos th * y - (sin th * x' + cos th * y')) * (sin th * x + cos th * y - (sin th * x' + cos th * y')) + (z - z') * (z - z')) with ((sin th * sin th + cos th * cos th) * ((x - x') * (x - x') + (y - y') * (y - y')) + (z - z') * (z - z')) by ring. rewrite S. ring.
Qed.
Lemma rot_two th th' p q : is_unit q -> vdist3 (rot th p) (rot th' q) <= vdist3 p q + Rabs (th - th').
Proof.
  intros U. eapply Rle_trans; [apply (vdist3_triangle _ (rot th q))|]. rewrite rot_dist. apply Rplus_le_compat_l. replace th with (th - th' + th') at 1 by ring. rewrite <- rot_rot. pose proof (rot_unit th' q U) as V. rewrite <- (Rmult_1_l (Rabs (th - th'))). apply rot_close; [lra|].
  destruct (rot th' q) as [[x y] z]. unfold is_unit, vdot in V. unfold L_geodesic2.px, L_geodesic2.py. cbn [fst snd]. pose proof (pow2_ge_0 z). lra.
Qed.
Lemma vadd_norm3 p q r : vnorm (vadd p (vadd q r)) <= vnorm p + vnorm q + vnorm r.
Proof. eapply Rle_trans; [apply L_aer.vnorm_triangle|]. pose proof (L_aer.vnorm_triangle q r). lra. Qed.
Lemma tan_end f x1 y1 z1 x2 y2 z2 c0 s1 s x3 y3 z3 c3 s3 s' A : 0 <= f <= 1 / 100 -> x1 ^ 2 + y1 ^ 2 + z1 ^ 2 = 1 -> x2 ^ 2 + y2 ^ 2 + z2 ^ 2 = 1 -> x3 ^ 2 + y3 ^ 2 + z3 ^ 2 = 1 -> x1 * x2 + y1 * y2 + z1 * z2 = 0 -> x1 * x3 + y1 * y3 + z1 * z3 = 0 ->
  z1 = c0 * sin s1 -> z2 = c0 * cos s1 -> z1 = c3 * sin s3 -> z3 = c3 * cos s3 -> is_unit (c_tan f x1 y1 z1 x3 y3 z3 c3 s3 s') ->
  Rabs (s - s') <= A -> vdist3 (Qa x1 y1 z1 x2 y2 z2 s) (Qa x1 y1 z1 x3 y3 z3 s') <= A -> Rabs (c_th f x1 y1 x2 y2 c0 s1 s - c_th f x1 y1 x3 y3 c3 s3 s') <= A ->
  vdist3 (c_tan f x1 y1 z1 x2 y2 z2 c0 s1 s) (c_tan f x1 y1 z1 x3 y3 z3 c3 s3 s') <= 11 / 10 * vdist3 (x2, y2, z2) (x3, y3, z3) + 4 * A.
Proof.
  intros F U1 U2 U3 W12 W13 Z1 Z2 Z1' Z3 UT HA HQ HT. set (e2 := f * (2 - f)). assert (HE : 0 <= e2 <= 2 / 100) by (unfold e2; nra).
  assert (f2 : 0 <= (1 - f) ^ 2 <= 1) by (clear - F; nra).
  assert (A0 : 0 <= A) by (pose proof (Rabs_pos (s - s')); lra). set (W := vdist3 (x2, y2, z2) (x3, y3, z3)). assert (W0 : 0 <= W) by apply vdist_pos. assert (W2 : W ^ 2 = (x2 - x3) ^ 2 + (y2 - y3) ^ 2 + (z2 - z3) ^ 2) by (unfold W; rewrite vdist_sq; reflexivity).
  assert (LC : Rabs (cos s - cos s') <= A) by (pose proof (lip_cos s s'); lra). assert (LS : Rabs (sin s - sin s') <= A) by (pose proof (lip_sin s s'); lra).
  assert (ON : c_X x1 x3 s' ^ 2 + c_Y y1 y3 s' ^ 2 + c_Z z1 z3 s' ^ 2 = 1) by (destruct (c_rels x1 y1 z1 x3 y3 z3 U1 U3 W13 s') as (Q & _); exact Q).
  assert (ON2 : c_X x1 x2 s ^ 2 + c_Y y1 y2 s ^ 2 + c_Z z1 z2 s ^ 2 = 1) by (destruct (c_rels x1 y1 z1 x2 y2 z2 U1 U2 W12 s) as (Q & _); exact Q).
  pose proof (vdist_sq (Qa x1 y1 z1 x2 y2 z2 s) (Qa x1 y1 z1 x3 y3 z3 s')) as Q2. unfold Qa in Q2 at 3 4 5 6 7 8. cbn [fst snd] in Q2. pose proof (vdist_pos (Qa x1 y1 z1 x2 y2 z2 s) (Qa x1 y1 z1 x3 y3 z3 s')) as QP. assert (Q3 : vdist3 (Qa x1 y1 z1 x2 y2 z2 s) (Qa x1 y1 z1 x3 y3 z3 s') ^ 2 <= A ^ 2) by (apply pow_incr; lra).
  unfold c_tan in *. set (th := c_th f x1 y1 x2 y2 c0 s1 s) in *. set (th' := c_th f x1 y1 x3 y3 c3 s3 s') in *.
  assert (CU : c_u f c0 s1 s = ww e2 (c_Z z1 z2 s)) by (rewrite (c_u_ww f z1 z2 c0 s1 F Z1 Z2); unfold zt, c_Z, e2; f_equal; ring). assert (CU' : c_u f c3 s3 s' = ww e2 (c_Z z1 z3 s')) by (rewrite (c_u_ww f z1 z3 c3 s3 F Z1' Z3); unfold zt, c_Z, e2; f_equal; ring).
  unfold c_g in *. fold e2 in UT |- *. rewrite CU in *. rewrite CU' in *. set (X := c_X x1 x2 s) in *. set (Y := c_Y y1 y2 s) in *. set (Z := c_Z z1 z2 s) in *. set (X3 := c_X x1 x3 s') in *. set (Y3 := c_Y y1 y3 s') in *. set (Z3' := c_Z z1 z3 s') in *.
  set (u := ww e2 Z) in *. set (u' := ww e2 Z3') in *. assert (UL : 98 / 100 <= u) by apply (ww_lo e2 HE). assert (UL' : 98 / 100 <= u') by apply (ww_lo e2 HE).
  assert (U2e : u ^ 2 = 1 - e2 * (1 - Z ^ 2)) by (unfold u, ww; pose proof (arg_pos e2 HE Z); rewrite pow2_sqrt; lra). assert (U2e' : u' ^ 2 = 1 - e2 * (1 - Z3' ^ 2)) by (unfold u', ww; pose proof (arg_pos e2 HE Z3'); rewrite pow2_sqrt; lra).
  pose proof (pow2_ge_0 (X - X3)) as s1p. pose proof (pow2_ge_0 (Y - Y3)) as s2p. pose proof (pow2_ge_0 (Z - Z3')) as s3p. pose proof (pow2_ge_0 X) as X2p. pose proof (pow2_ge_0 Y) as Y2p. pose proof (pow2_ge_0 X3) as X3p. pose proof (pow2_ge_0 Y3) as Y3p. pose proof (pow2_ge_0 Z) as Z2p. pose proof (pow2_ge_0 Z3') as Z3p.
  assert (BZ : Rabs (Z - Z3') <= A) by (apply abs_of_sq; lra). assert (ZB : Rabs Z <= 1) by (apply abs_of_sq; lra). assert (ZB' : Rabs Z3' <= 1) by (apply abs_of_sq; lra).
  assert (BU : Rabs (u - u') <= 21 / 1000 * A).
  { assert (E : (u - u') * (u + u') = e2 * ((Z + Z3') * (Z - Z3'))) by (replace ((u - u') * (u + u')) with (u ^ 2 - u' ^ 2) by ring; rewrite U2e, U2e'; ring).
    assert (E1 : Rabs (e2 * ((Z + Z3') * (Z - Z3'))) <= 2 / 100 * (2 * A)). { apply L_vincenty2.Rabs_mul_le; [rewrite Rabs_right; lra|]. apply L_vincenty2.Rabs_mul_le; [|exact BZ]. eapply Rle_trans; [apply Rabs_triang|lra]. }
    rewrite <- E, Rabs_mult, (Rabs_right (u + u')) in E1 by lra. pose proof (Rabs_pos (u - u')). clear - E1 H UL UL' A0. nra. }
  set (m := c_s0 x1 y1 x2 y2) in *. set (m' := c_s0 x1 y1 x3 y3) in *.
  assert (BM : Rabs (m - m') <= W). { apply abs_of_sq; [exact W0|]. unfold m, m', c_s0. pose proof (cauchy3 x1 (- y1) 0 (y2 - y3) (x2 - x3) 0) as Q. replace (x1 * (y2 - y3) + - y1 * (x2 - x3) + 0 * 0) with (x1 * y2 - y1 * x2 - (x1 * y3 - y1 * x3)) in Q by ring. eapply Rle_trans; [exact Q|]. rewrite W2, <- (Rmult_1_l ((x2 - x3) ^ 2 + (y2 - y3) ^ 2 + (z2 - z3) ^ 2)). pose proof (pow2_ge_0 z1). pose proof (pow2_ge_0 (z2 - z3)). pose proof (pow2_ge_0 (x2 - x3)). pose proof (pow2_ge_0 (y2 - y3)). pose proof (pow2_ge_0 x1). pose proof (pow2_ge_0 y1). apply Rmult_le_compat; lra. }
  assert (M1 : Rabs m' <= 1). { apply abs_of_sq; [lra|]. unfold m', c_s0. pose proof (cauchy3 x1 (- y1) 0 y3 x3 0) as Q. replace (x1 * y3 + - y1 * x3 + 0 * 0) with (x1 * y3 - y1 * x3) in Q by ring. eapply Rle_trans; [exact Q|]. replace (1 ^ 2) with (1 * 1) by ring. pose proof (pow2_ge_0 z1). pose proof (pow2_ge_0 z3). pose proof (pow2_ge_0 x1). pose proof (pow2_ge_0 y1). pose proof (pow2_ge_0 x3). pose proof (pow2_ge_0 y3). apply Rmult_le_compat; lra. }
  set (g := e2 * m / (1 + u)) in *. set (g' := e2 * m' / (1 + u')) in *.
  assert (I1 : 0 < / (1 + u) <= 51 / 100). { split; [apply Rinv_0_lt_compat; lra|]. apply Rmult_le_reg_r with (1 + u); [lra|]. rewrite Rinv_l by lra. lra. }
  assert (I1' : 0 < / (1 + u') <= 51 / 100). { split; [apply Rinv_0_lt_compat; lra|]. apply Rmult_le_reg_r with (1 + u'); [lra|]. rewrite Rinv_l by lra. lra. }
  assert (BG' : Rabs g' <= 2 / 100 * 1 * (51 / 100)). { unfold g', Rdiv. apply L_vincenty2.Rabs_mul_le; [apply L_vincenty2.Rabs_mul_le; [rewrite Rabs_right; lra|exact M1]|rewrite Rabs_right; lra]. }
  assert (BG : Rabs (g - g') <= 2 / 100 * (51 / 100 * W + 1 * (51 / 100 * (51 / 100) * (21 / 1000 * A)))).
  { replace (g - g') with (e2 * (/ (1 + u) * (m - m') + m' * (/ (1 + u) * / (1 + u') * (u' - u)))) by (unfold g, g'; field; lra). apply L_vincenty2.Rabs_mul_le; [rewrite Rabs_right; lra|]. eapply Rle_trans; [apply Rabs_triang|]. apply Rplus_le_compat; [apply L_vincenty2.Rabs_mul_le; [rewrite Rabs_right; lra|exact BM]|].
    apply L_vincenty2.Rabs_mul_le; [exact M1|]. apply L_vincenty2.Rabs_mul_le; [|rewrite Rabs_minus_sym; exact BU]. apply L_vincenty2.Rabs_mul_le; rewrite Rabs_right; lra. }
  set (T' := ((c_X' x1 x3 s' + g' * Y3) / u', (c_Y' y1 y3 s' - g' * X3) / u', (1 - f) * c_Z' z1 z3 s' / u')) in *.
  assert (UT' : is_unit T'). { replace T' with (rot (- th') (rot th' T')) by (rewrite rot_rot; replace (- th' + th') with 0 by ring; destruct T' as [[? ?] ?]; unfold rot; rewrite cos_0, sin_0; apply f_equal2; [apply f_equal2|]; ring). now apply rot_unit. }
  set (T := ((c_X' x1 x2 s + g * Y) / u, (c_Y' y1 y2 s - g * X) / u, (1 - f) * c_Z' z1 z2 s / u)) in *.
  eapply Rle_trans; [apply rot_two; exact UT'|]. assert (Iu : 0 < / u <= 103 / 100). { split; [apply Rinv_0_lt_compat; lra|]. apply Rmult_le_reg_r with u; [lra|]. rewrite Rinv_l by lra. lra. }
  set (V1 := ((x2 - x3) * cos s, (y2 - y3) * cos s, (1 - f) * ((z2 - z3) * cos s))).
  set (V2 := vscale (cos s - cos s') (x3, y3, (1 - f) * z3)). set (V3 := vscale (- (sin s - sin s')) (x1, y1, (1 - f) * z1)).
  set (V4 := vscale (g - g') (Y, - X, 0)). set (V5 := vscale g' (Y - Y3, - (X - X3), 0)). set (V6 := vscale (u' - u) T').
  assert (E : vsub T T' = vscale (/ u) (vadd V1 (vadd V2 (vadd V3 (vadd V4 (vadd V5 V6)))))). { unfold V1, V2, V3, V4, V5, V6, T, T', c_X', c_Y', c_Z', vsub, vadd, vscale. apply f_equal2; [apply f_equal2|]; field; lra. }
  assert (N1 : vnorm V1 <= W). { apply vnorm_le_sq; [exact W0|]. rewrite W2. unfold V1, vdot. pose proof (sc1 s) as SC. pose proof (Rle_0_sqr (sin s)) as SS. unfold Rsqr in SS. pose proof (pow2_ge_0 (x2 - x3)). pose proof (pow2_ge_0 (y2 - y3)). pose proof (pow2_ge_0 (z2 - z3)).
    replace ((x2 - x3) * cos s * ((x2 - x3) * cos s) + (y2 - y3) * cos s * ((y2 - y3) * cos s) + (1 - f) * ((z2 - z3) * cos s) * ((1 - f) * ((z2 - z3) * cos s))) with (cos s * cos s * ((x2 - x3) ^ 2 + (y2 - y3) ^ 2 + (1 - f) ^ 2 * (z2 - z3) ^ 2)) by ring. rewrite <- (Rmult_1_l ((x2 - x3) ^ 2 + (y2 - y3) ^ 2 + (z2 - z3) ^ 2)). assert (KK : 0 <= (1 - f) ^ 2 * (z2 - z3) ^ 2 <= (z2 - z3) ^ 2) by (apply sq_part; assumption). pose proof (Rle_0_sqr (cos s)) as CS. unfold Rsqr in CS. apply Rmult_le_compat; lra. }
  assert (N2 : vnorm V2 <= A * 1). { unfold V2. rewrite vnorm_scale. apply Rmult_le_compat; [apply Rabs_pos|apply sqrt_pos|exact LC|]. apply vnorm_le_sq; [lra|]. unfold vdot. pose proof (sq_part _ _ f2 (pow2_ge_0 z3)). lra. }
  assert (N3 : vnorm V3 <= A * 1). { unfold V3. rewrite vnorm_scale, Rabs_Ropp. apply Rmult_le_compat; [apply Rabs_pos|apply sqrt_pos|exact LS|]. apply vnorm_le_sq; [lra|]. unfold vdot. pose proof (sq_part _ _ f2 (pow2_ge_0 z1)). lra. }
  assert (N4 : vnorm V4 <= Rabs (g - g') * 1). { unfold V4. rewrite vnorm_scale. apply Rmult_le_compat_l; [apply Rabs_pos|]. apply vnorm_le_sq; [lra|]. unfold vdot. lra. }
  assert (N5 : vnorm V5 <= Rabs g' * A). { unfold V5. rewrite vnorm_scale. apply Rmult_le_compat_l; [apply Rabs_pos|]. apply vnorm_le_sq; [lra|]. unfold vdot. lra. }
  assert (N6 : vnorm V6 <= 21 / 1000 * A). { unfold V6. rewrite vnorm_scale, (unit_norm T' UT'), Rabs_minus_sym. lra. }
  unfold vdist3 at 1. rewrite E, vnorm_scale, Rabs_right by lra.
  assert (NN : vnorm (vadd V1 (vadd V2 (vadd V3 (vadd V4 (vadd V5 V6))))) <= 1011 / 1000 * W + 205 / 100 * A).
  { eapply Rle_trans; [apply vadd_norm3|]. pose proof (vadd_norm3 V3 V4 (vadd V5 V6)) as K. pose proof (L_aer.vnorm_triangle V5 V6) as K'. pose proof (Rabs_pos g') as gp. assert (Rabs g' * A <= 2 / 100 * 1 * (51 / 100) * A) by (apply Rmult_le_compat_r; lra). lra. }
  pose proof (L_aer.vnorm_nonneg (vadd V1 (vadd V2 (vadd V3 (vadd V4 (vadd V5 V6)))))) as NP. assert (/ u * vnorm (vadd V1 (vadd V2 (vadd V3 (vadd V4 (vadd V5 V6))))) <= 103 / 100 * (1011 / 1000 * W + 205 / 100 * A)) by (apply Rmult_le_compat; lra). lra.
Qed.
Section Geo.
Variables (a f : R).
Hypothesis Ha : 0 < a.
Hypothesis F : 0 <= f <= 1 / 100.
Let b := a * (1 - f).
Let e2 := f * (2 - f).
Notation nrm := (nrm a f).
Lemma geo_data c t s x1 y1 z1 : unit_geodesic a b c t -> nrm (c 0) = (x1, y1, z1) -> 0 < s <= 27 / 10 * a -> exists x2 y2 z2 c0 s1 sg,
  x2 ^ 2 + y2 ^ 2 + z2 ^ 2 = 1 /\ x1 * x2 + y1 * y2 + z1 * z2 = 0 /\ z1 = c0 * sin s1 /\ z2 = c0 * cos s1 /\ t 0 = c_tan f x1 y1 z1 x2 y2 z2 c0 s1 0 /\ t s = c_tan f x1 y1 z1 x2 y2 z2 c0 s1 sg /\
  0 < sg <= 2756 / 1000 /\ 98 / 100 * sg <= s / a <= sg /\ nrm (c s) = rot (c_th f x1 y1 x2 y2 c0 s1 sg) (Qa x1 y1 z1 x2 y2 z2 sg).
Proof.
  intros G EN Hs. destruct (G 0) as (O0 & _ & U0 & _). destruct (frame a f Ha F (c 0) (t 0) O0 U0 (tangent a f Ha F c t G 0)) as (x2 & y2 & z2 & c0 & s1 & W2 & W1 & Z1 & Z2 & P0 & T0).
  pose proof (on_unit a f Ha F _ O0) as UN. rewrite EN in *. cbn [fst snd] in *. assert (V1 : x1 ^ 2 + y1 ^ 2 + z1 ^ 2 = 1) by (unfold is_unit, vdot in UN; lra).
  pose proof (F1 f F) as F'. pose proof (geodesic_exists a f x1 y1 z1 x2 y2 z2 c0 s1 Ha F' V1 W2 W1 Z1 Z2) as GE. set (hh := ex_h a f c0 s1 Ha F') in GE. pose proof (ex_h_len a f c0 s1 Ha F') as HLn. pose proof (ex_h_val a f c0 s1 Ha F') as HV. fold hh in HLn, HV.
  assert (H0 : hh 0 = 0) by (rewrite <- (c_len_0 a f c0 s1) at 1; apply HLn). assert (Bp : 0 < b <= a) by (unfold b; nra).
  destruct (geodesic_unique a b (proj1 Bp) (proj2 Bp) c t _ _ G GE ltac:(cbv beta; rewrite H0; symmetry; exact P0) ltac:(cbv beta; rewrite H0; symmetry; exact T0) s) as [UQ UQt]. cbv beta in UQ, UQt.
  set (sg := hh s) in *. assert (LS : c_len a f c0 s1 sg = s) by apply HV.
  assert (SG : 0 < sg). { apply Rnot_le_lt. intros X. pose proof (inv_mvt (c_len a f c0 s1) (fun s => a * c_u f c0 s1 s) (ex_len a f c0 s1 F') sg 0) as (k & _ & E). rewrite c_len_0, LS in E. pose proof (c_u_pos f c0 s1 F' k). assert (0 <= a * c_u f c0 s1 k) by (apply Rmult_le_pos; lra). assert (0 <= a * c_u f c0 s1 k * (0 - sg)) by (apply Rmult_le_pos; lra). lra. }
  assert (SS : s / a = Sf e2 z1 sg z2). { rewrite <- LS. rewrite (len_S a f z1 z2 c0 s1 F Z1 Z2 sg ltac:(lra)). unfold e2. field. lra. }
  pose proof (Sf_lo e2 ltac:(unfold e2; nra) z1 sg z2 ltac:(lra)) as SL. pose proof (Sf_hi e2 ltac:(unfold e2; nra) z1 sg z2 ltac:(lra)) as SH. rewrite <- SS in SL, SH.
  assert (ZZ : z1 ^ 2 + z2 ^ 2 <= 1). { pose proof (cauchy3 x1 y1 0 x2 y2 0) as CC. replace (x1 * x2 + y1 * y2 + 0 * 0) with (- (z1 * z2)) in CC by lra. replace (x1 ^ 2 + y1 ^ 2 + 0 ^ 2) with (1 - z1 ^ 2) in CC by lra. replace (x2 ^ 2 + y2 ^ 2 + 0 ^ 2) with (1 - z2 ^ 2) in CC by lra. nra. }
  specialize (SH ZZ).
  assert (S27 : s / a <= 27 / 10) by (apply Rmult_le_reg_r with a; [exact Ha|]; unfold Rdiv; rewrite Rmult_assoc, Rinv_l by lra; lra).
  exists x2, y2, z2, c0, s1, sg. repeat (split; [first [assumption|symmetry; assumption|lra]|]).
  rewrite UQ. unfold L_short6.nrm, Qa, c_pos, rot. cbn [fst snd]. apply f_equal2; [apply f_equal2|]; field; lra.
Qed.
Definition Dd (p q : vec3) : R := vdist3 p q / a.
Lemma Dd_pos p q : 0 <= Dd p q.
Proof. apply Rmult_le_pos; [apply vdist_pos|left; apply Rinv_0_lt_compat, Ha]. Qed.
Lemma directions c t s c' t' s' : unit_geodesic a b c t -> unit_geodesic a b c' t' -> c 0 = c' 0 -> 0 < s <= 27 / 10 * a -> 0 < s' <= 27 / 10 * a -> 60 * Dd (c s) (c' s') <= sin (s / a) ->
  sin (s / a) * vdist3 (t 0) (t' 0) <= 120 * Dd (c s) (c' s') /\ sin (s / a) * vdist3 (t s) (t' s') <= 120 * Dd (c s) (c' s').
Proof.
  intros G G' E0 Hs Hs' DS. pose proof pi_gt as PG. destruct (nrm (c 0)) as [[x1 y1] z1] eqn:EN. assert (EN' : nrm (c' 0) = (x1, y1, z1)) by (rewrite <- E0; exact EN).
  destruct (geo_data c t s x1 y1 z1 G EN Hs) as (x2 & y2 & z2 & c0 & s1 & sg & W2 & W12 & Z1 & Z2 & T0 & TS & Sg & SS & N).
  destruct (geo_data c' t' s' x1 y1 z1 G' EN' Hs') as (x3 & y3 & z3 & c3 & s3 & sg' & W3 & W13 & Z1' & Z3 & T0' & TS' & Sg' & SS' & N').
  destruct (G 0) as (O0 & _ & V0 & _). destruct (G' 0) as (_ & _ & V0' & _). pose proof (on_unit a f Ha F _ O0) as UN. rewrite EN in UN. assert (V1 : x1 ^ 2 + y1 ^ 2 + z1 ^ 2 = 1) by (unfold is_unit, vdot in UN; lra).
  pose proof (ang_near a f Ha F (c s) (c' s') ltac:(apply (G s)) ltac:(apply (G' s'))) as AN. fold (Dd (c s) (c' s')) in AN. pose proof (Dd_pos (c s) (c' s')) as D0. set (D := Dd (c s) (c' s')) in *. rewrite N, N' in AN.
  destruct (sin_slack sg (s / a) ltac:(lra) SS) as [S0 S1]. pose proof (L_vincenty2.abs_sin (s / a)) as SA.
  assert (DS1 : 60 * D <= s / a) by (pose proof (sin_lt_x (s / a) ltac:(lra)); lra).
  assert (DS2 : 60 * D <= PI - s / a) by (rewrite <- sin_PI_x in DS; pose proof (sin_lt_x (PI - s / a) ltac:(lra)); lra). pose proof pi_lo3145 as PL.
  assert (D1 : 60 * D <= 1) by (apply Rabs_le_between in SA; lra).
  destruct (arc_facts f x1 y1 z1 x2 y2 z2 c0 s1 F V1 W2 W12 Z1 Z2 sg ltac:(lra)) as (UQ & AQ & KQ & TQ). destruct (arc_facts f x1 y1 z1 x3 y3 z3 c3 s3 F V1 W3 W13 Z1' Z3 sg' ltac:(lra)) as (UQ' & AQ' & KQ' & TQ').
  pose proof (tan_end f x1 y1 z1 x2 y2 z2 c0 s1 sg x3 y3 z3 c3 s3 sg') as TE.
  pose proof (turn_back (c_th f x1 y1 x2 y2 c0 s1 sg) (c_th f x1 y1 x3 y3 c3 s3 sg') _ _ UQ UQ') as TB. set (th := c_th f x1 y1 x2 y2 c0 s1 sg) in *. set (th' := c_th f x1 y1 x3 y3 c3 s3 sg') in *. set (Q := Qa x1 y1 z1 x2 y2 z2 sg) in *. set (Q' := Qa x1 y1 z1 x3 y3 z3 sg') in *.
  set (A := unit_angle Q Q') in *. specialize (TE A F V1 W2 W3 W12 W13 Z1 Z2 Z1' Z3 ltac:(rewrite <- TS'; apply (G' s'))). rewrite <- TS, <- TS' in TE. assert (TD : Rabs (th - th') <= Rabs th + Rabs th') by (unfold Rminus; eapply Rle_trans; [apply Rabs_triang|rewrite Rabs_Ropp; lra]).
  pose proof (L_vin3.angle_triangle _ _ _ UN UQ UQ') as TR1. pose proof (L_vin3.angle_triangle _ _ _ UN UQ' UQ) as TR2. rewrite (L_nvector.angle_sym Q' Q) in TR2. fold A in TR1, TR2. rewrite AQ, AQ' in TR1, TR2.
  pose proof (K_near (f * (2 - f)) x1 y1 z1 (He2 f F) V1 Q Q' UQ UQ') as KN. fold A in KN. rewrite AQ in KN. specialize (KN ltac:(lra)).
  specialize (KN ltac:(lra)). rewrite KQ, KQ' in KN. replace (- th' - - th) with (th - th') in KN by ring.
  assert (A2 : A <= 408 / 100 * D) by lra.
  pose proof (dir_diff sg sg' x1 y1 z1 x2 y2 z2 x3 y3 z3 V1 W3 ltac:(lra)) as DD. fold Q Q' in DD.
  pose proof (L_nvector.angle_range Q Q' UQ UQ') as RG. fold A in RG.
  assert (CH : vdist3 Q Q' <= A). { destruct (gc_link Q Q' UQ UQ' ltac:(fold A; lra)) as (g & G0 & G1 & _ & GD). fold A in G1. rewrite <- G0, <- G1. eapply Rle_trans; [apply GD|]. rewrite Rminus_0_l, Rabs_Ropp, Rabs_right; lra. }
  assert (SD : Rabs (sg - sg') <= A) by (apply Rabs_le; lra). specialize (TE SD CH ltac:(lra)).
  pose proof (tan_diff f x1 y1 z1 x2 y2 z2 c0 s1 x3 y3 z3 c3 s3 F V1 Z1 Z2 Z1' Z3) as TF. rewrite <- T0, <- T0' in TF. pose proof (vdist_pos (x2, y2, z2) (x3, y3, z3)) as VP. set (V := vdist3 (x2, y2, z2) (x3, y3, z3)) in *.
  pose proof (vdist_pos (t 0) (t' 0)) as TP. pose proof (vdist_pos (t s) (t' s')) as TP'. set (T := vdist3 (t 0) (t' 0)) in *. set (T' := vdist3 (t s) (t' s')) in *.
  assert (SG0 : 0 <= sin sg) by lra. assert (X1 : sin (s / a) * T <= 13 / 10 * sin sg * (103 / 100 * V)) by (apply Rmult_le_compat; lra).
  assert (X2 : sin (s / a) * T' <= 13 / 10 * sin sg * (11 / 10 * V) + 1 * (4 * A)). { apply Rle_trans with (sin (s / a) * (11 / 10 * V + 4 * A)); [apply Rmult_le_compat_l; lra|]. rewrite Rmult_plus_distr_l. apply Rabs_le_between in SA. apply Rplus_le_compat; apply Rmult_le_compat; lra. }
  split; lra.
Qed.
Lemma unit_gap p q : is_unit p -> is_unit q -> vdist3 p q <= 2.
Proof. intros V0 V1. apply vnorm_le_sq; [lra|]. unfold is_unit in *. destruct p as [[u v] w], q as [[u' v'] w']. unfold vdot, vsub in *. pose proof (Rle_0_sqr (u + u')). pose proof (Rle_0_sqr (v + v')). pose proof (Rle_0_sqr (w + w')). unfold Rsqr in *. lra. Qed.
Lemma leave_far c t s : unit_geodesic a b c t -> 0 < s <= 27 / 10 * a -> sin (s / a) <= 3 * Dd (c s) (c 0).
Proof.
  intros G Hs. pose proof pi_gt as PG. destruct (nrm (c 0)) as [[x1 y1] z1] eqn:EN. destruct (geo_data c t s x1 y1 z1 G EN Hs) as (x2 & y2 & z2 & c0 & s1 & sg & W2 & W12 & Z1 & Z2 & _ & _ & Sg & SS & N).
  destruct (G 0) as (O0 & _). pose proof (on_unit a f Ha F _ O0) as UN. pose proof (on_unit a f Ha F (c s) ltac:(apply (G s))) as UE. rewrite EN in UN. assert (V1 : x1 ^ 2 + y1 ^ 2 + z1 ^ 2 = 1) by (unfold is_unit, vdot in UN; lra).
  pose proof (ang_near a f Ha F (c s) (c 0) ltac:(apply (G s)) O0) as AN. fold (Dd (c s) (c 0)) in AN. rewrite EN, L_nvector.angle_sym in AN.
  destruct (arc_facts f x1 y1 z1 x2 y2 z2 c0 s1 F V1 W2 W12 Z1 Z2 sg ltac:(lra)) as (UQ & AQ & _ & TQ). pose proof (rot_turn (c_th f x1 y1 x2 y2 c0 s1 sg) _ UQ) as RT. rewrite <- N in RT.
  pose proof (L_vin3.angle_triangle _ _ _ UN UE UQ) as TR. rewrite AQ, (L_nvector.angle_sym (nrm (c s))) in TR. pose proof (sin_lt_x (s / a) ltac:(lra)). lra.
Qed.
Theorem direction_stable c t s c' t' s' : unit_geodesic a b c t -> unit_geodesic a b c' t' -> c 0 = c' 0 -> 0 < s <= 27 / 10 * a -> 0 <= s' <= 27 / 10 * a ->
  sin (s / a) * vdist3 (t 0) (t' 0) <= 120 * Dd (c s) (c' s') /\ sin (s / a) * vdist3 (t s) (t' s') <= 120 * Dd (c s) (c' s').
Proof.
  intros G G' E0 Hs Hs'. pose proof pi_gt. assert (S27 : 0 < s / a <= 27 / 10) by (split; [apply Rdiv_lt_0_compat; lra|apply Rmult_le_reg_r with a; [exact Ha|]; unfold Rdiv; rewrite Rmult_assoc, Rinv_l by lra; lra]).
  assert (S0 : 0 < sin (s / a)) by (apply sin_gt_0; lra).
  assert (BIG : sin (s / a) <= 60 * Dd (c s) (c' s') -> sin (s / a) * vdist3 (t 0) (t' 0) <= 120 * Dd (c s) (c' s') /\ sin (s / a) * vdist3 (t s) (t' s') <= 120 * Dd (c s) (c' s')).
  { intros B. pose proof (unit_gap (t 0) (t' 0) ltac:(apply (G 0)) ltac:(apply (G' 0))) as A1. pose proof (unit_gap (t s) (t' s') ltac:(apply (G s)) ltac:(apply (G' s'))) as A2. pose proof (vdist_pos (t 0) (t' 0)). pose proof (vdist_pos (t s) (t' s')).
    assert (sin (s / a) * vdist3 (t 0) (t' 0) <= sin (s / a) * 2) by (apply Rmult_le_compat_l; lra). assert (sin (s / a) * vdist3 (t s) (t' s') <= sin (s / a) * 2) by (apply Rmult_le_compat_l; lra). lra. }
  destruct (Rle_dec (sin (s / a)) (60 * Dd (c s) (c' s'))) as [B|B]; [exact (BIG B)|]. destruct (Rle_lt_or_eq_dec 0 s' (proj1 Hs')) as [P|P]; [apply directions; try assumption; lra|].
  apply BIG. rewrite <- P, <- E0. pose proof (leave_far c t s G Hs). pose proof (Dd_pos (c s) (c 0)). lra.
Qed.
(** Only one geodesic joins two points within this range. *)
Theorem one_geodesic c t s c' t' s' : unit_geodesic a b c t -> unit_geodesic a b c' t' -> 0 < s <= 27 / 10 * a -> 0 <= s' <= 27 / 10 * a -> c 0 = c' 0 -> c s = c' s' -> forall x, c x = c' x /\ t x = t' x.
Proof.
  intros G G' Hs Hs' E0 E1. destruct (direction_stable c t s c' t' s' G G' E0 Hs Hs') as [Q _]. unfold Dd in Q. rewrite E1 in Q. assert (Z : vdist3 (c' s') (c' s') = 0). { unfold vdist3. rewrite <- sqrt_0. unfold vnorm. f_equal. destruct (c' s') as [[? ?] ?]. unfold vdot, vsub. ring. }
  rewrite Z in Q. unfold Rdiv in Q at 2. rewrite Rmult_0_l, Rmult_0_r in Q. pose proof pi_gt. assert (S27 : 0 < s / a <= 27 / 10) by (split; [apply Rdiv_lt_0_compat; lra|apply Rmult_le_reg_r with a; [exact Ha|]; unfold Rdiv; rewrite Rmult_assoc, Rinv_l by lra; lra]).
  assert (S0 : 0 < sin (s / a)) by (apply sin_gt_0; lra). pose proof (vdist_pos (t 0) (t' 0)) as TP. assert (T0 : vdist3 (t 0) (t' 0) = 0) by nra.
  assert (TE : t 0 = t' 0). { pose proof (vdist_sq (t 0) (t' 0)) as V. rewrite T0 in V. destruct (t 0) as [[u v] w], (t' 0) as [[u' v'] w']. cbn [fst snd] in V. pose proof (pow2_ge_0 (u - u')). pose proof (pow2_ge_0 (v - v')). pose proof (pow2_ge_0 (w - w')). assert (u - u' = 0) by nra. assert (v - v' = 0) by nra. assert (w - w' = 0) by nra. apply f_equal2; [apply f_equal2|]; lra. }
  assert (Bp : 0 < b <= a) by (unfold b; nra). exact (geodesic_unique a b (proj1 Bp) (proj2 Bp) c t c' t' G G' E0 TE).
Qed.
End Geo.
