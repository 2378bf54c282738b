(** From every point in every direction there is a geodesic. *)
From Coq Require Import Reals Lra Lia Psatz.
From Verif Require Import PyMath L_PyMath Spec Spec_geodesic L_geodesic1 L_geodesic2 L_geodesic3 L_geodesic4.
Open Scope R_scope.
Theorem geodesic_from a b phi l az : 0 < b -> b <= a ->
  exists c t, unit_geodesic a b c t /\ c 0 = surface_point a b phi l /\ t 0 = heading_vector phi l az.
Proof.
  intros Hb Hab. set (f := 1 - b / a). assert (Q0 : 0 < b / a <= 1).
  { split; [apply Rdiv_lt_0_compat; lra|]. apply Rmult_le_reg_r with a; [lra|]. replace (b / a * a) with b by (field; lra). lra. }
  assert (F : 0 <= f < 1) by (unfold f; lra). assert (Eb : b = a * (1 - f)) by (unfold f; field; lra).
  set (h := hypot (cos phi) ((1 - f) * sin phi)). assert (Hp : 0 < h).
  { apply hypot_pos. pose proof (sc1 phi). destruct (Req_dec (cos phi) 0) as [Z|Z]; [right|left; exact Z]. intros X. apply Rmult_integral in X. destruct X as [X|X]; [lra|]. rewrite Z, X in *. lra. }
  assert (H2 : h ^ 2 = cos phi ^ 2 + ((1 - f) * sin phi) ^ 2) by apply hypot_pow2.
  set (sU := (1 - f) * sin phi / h). set (cU := cos phi / h). assert (HU : sU ^ 2 + cU ^ 2 = 1).
  { unfold sU, cU. replace (((1 - f) * sin phi / h) ^ 2 + (cos phi / h) ^ 2) with ((cos phi ^ 2 + ((1 - f) * sin phi) ^ 2) / h ^ 2) by (field; lra). rewrite <- H2. field. lra. }
  set (U := atan2 sU cU). assert (HH : hypot cU sU = 1) by (apply hypot_uniq; lra).
  pose proof (hypot_cos_atan2 sU cU) as CU. pose proof (hypot_sin_atan2 sU cU) as SU. rewrite HH, Rmult_1_l in CU, SU. fold U in CU, SU.
  pose (x1 := cos U * cos l). pose (y1 := cos U * sin l). pose (z1 := sin U).
  pose (x2 := cos az * - (sin U * cos l) + sin az * - sin l). pose (y2 := cos az * - (sin U * sin l) + sin az * cos l). pose (z2 := cos az * cos U + sin az * 0).
  pose proof (sc1 l) as SL. pose proof (sc1 az) as SA. pose proof (sc1 U) as SUU. assert (SL' : sin l ^ 2 = 1 - cos l ^ 2) by nra. assert (SU' : sin U ^ 2 = 1 - cos U ^ 2) by nra. assert (SA' : sin az ^ 2 = 1 - cos az ^ 2) by nra.
  assert (U1 : x1 ^ 2 + y1 ^ 2 + z1 ^ 2 = 1) by (unfold x1, y1, z1; ring [SL' SU' SA']).
  assert (U2 : x2 ^ 2 + y2 ^ 2 + z2 ^ 2 = 1) by (unfold x2, y2, z2; ring [SL' SU' SA']).
  assert (U12 : x1 * x2 + y1 * y2 + z1 * z2 = 0) by (unfold x1, y1, z1, x2, y2, z2; ring [SL' SU' SA']).
  set (c0 := hypot z2 z1). set (s1 := atan2 z1 z2).
  assert (HZ1 : z1 = c0 * sin s1) by (symmetry; apply hypot_sin_atan2). assert (HZ2 : z2 = c0 * cos s1) by (symmetry; apply hypot_cos_atan2).
  assert (Ap : 0 < a) by lra.
  pose proof (geodesic_exists a f x1 y1 z1 x2 y2 z2 c0 s1 Ap F U1 U2 U12 HZ1 HZ2) as GE. rewrite <- Eb in GE.
  pose proof (ex_h_len a f c0 s1 Ap F 0) as H0. rewrite (c_len_0 a f c0 s1) in H0.
  eexists; eexists; split; [exact GE|]. cbv beta. rewrite H0.
  pose proof (at_frame a f x1 y1 z1 x2 y2 z2 c0 s1 Ap F U1 U2 U12 HZ1 HZ2 0 U l az phi) as AF. cbv zeta in AF. rewrite <- Eb in AF.
  assert (TH0 : c_th f x1 y1 x2 y2 c0 s1 0 = 0) by (unfold c_th; rewrite Rplus_0_r; ring). rewrite TH0, Rplus_0_r in AF.
  assert (U0 : c_u f c0 s1 0 = (1 - f) / h).
  { pose proof (c_u_pos f c0 s1 F 0) as P1. assert (P2 : 0 < (1 - f) / h) by (apply Rdiv_lt_0_compat; lra).
    apply Rsqr_inj; [lra|lra|]. rewrite !Rsqr_pow2.
    rewrite (c_u_sq f z1 z2 c0 s1 F HZ1 HZ2 0). replace (c_Z z1 z2 0) with z1 by (unfold c_Z; rewrite cos_0, sin_0; ring). unfold z1. rewrite SU. unfold sU.
    replace (((1 - f) * sin phi / h) ^ 2) with (((1 - f) * sin phi) ^ 2 / h ^ 2) by (field; lra). replace (((1 - f) / h) ^ 2) with ((1 - f) ^ 2 / h ^ 2) by (field; lra). rewrite H2.
    pose proof (sc1 phi). assert (W : sin phi ^ 2 = 1 - cos phi ^ 2) by nra. assert (Wn : cos phi ^ 2 + ((1 - f) * sin phi) ^ 2 <> 0) by (rewrite <- H2; apply pow_nonzero; lra).
    apply Rmult_eq_reg_r with (cos phi ^ 2 + ((1 - f) * sin phi) ^ 2); [|exact Wn].
    match goal with |- ?x = ?y => replace y with ((1 - f) ^ 2) by (field; exact Wn); replace x with ((1 - f * (2 - f)) * (cos phi ^ 2 + ((1 - f) * sin phi) ^ 2) + f * (2 - f) * ((1 - f) * sin phi) ^ 2) by (field; exact Wn) end.
    replace (((1 - f) * sin phi) ^ 2) with ((1 - f) ^ 2 * sin phi ^ 2) by ring. rewrite W. ring. }
  apply AF.
  - unfold c_X, c_Y, c_Z, unit_normal. rewrite cos_0, sin_0. unfold x1, y1, z1. apply f_equal2; [apply f_equal2|]; ring.
  - unfold c_X', c_Y', c_Z', heading_vector, north_axis, east_axis, vadd, vscale. rewrite cos_0, sin_0. unfold x2, y2, z2. apply f_equal2; [apply f_equal2|]; ring.
  - rewrite U0, SU. unfold sU. field. lra.
  - rewrite U0, CU. unfold cU. field. lra.
Qed.
