(** Property C96: positions computed from local coordinates, in binary64. *)
From Coq Require Import Reals ZArith Lra Lia Psatz.
From Flocq Require Import Core.
From Verif Require Import PyMath L_PyMath M_ellipsoid M_ecef M_enu M_aer M_ned M_float M_floatenu M_floatgeo M_floataer Spec Spec_float P_float L_float P_rounding P_stable P_roundgeo P_roundpole.
From Verif Require L_aer L_vin3 L_ecef.
Open Scope R_scope.

(** The results are the coordinates of the place: latitude to 6.4e-14 rad, longitude (up to
    whole turns) to 0.2 micrometre at its distance p from the polar axis, height to 0.55
    micrometre. *)
Definition locates (deg : bool) (lat lon h p : R) (q : vec3) : Prop :=
  let '(latf, lonf, hf) := q in
  Rabs (as_rad deg latf - as_rad deg lat) <= 64 / 10 ^ 15 /\
  (1 / 1000 <= p -> exists k : Z, Rabs (as_rad deg lonf - as_rad deg lon - IZR k * (2 * PI)) <= 23 / 10 ^ 16 + 2 / 10 ^ 7 / p) /\
  Rabs (hf - h) <= 55 / 10 ^ 8.

Lemma locate lk lat lon h x y z eps deg P : libm2_ok lk -> double x -> double y -> double z -> far x -> far y -> far z -> Rabs lat <= quarter deg -> -999 <= h <= 9999 -> 0 < eps <= 1141 / 10 ^ 10 ->
  geodetic2ecef lat lon h None deg = P -> within eps (x, y, z) P -> locates deg lat lon h (hypot x y) (fl_ecef2geodetic lk x y z None deg).
Proof.
  intros M Dx Dy Dz Fx Fy Fz L H E G W. pose proof (near_dist _ _ _ W ltac:(lra)) as D. rewrite <- G in D. pose proof (C93_everywhere_near_earth lk lat lon h x y z (1977 / 10 ^ 10) deg M Dx Dy Dz Fx Fy Fz L ltac:(lra) ltac:(lra) ltac:(lra)) as N. unfold locates.
  destruct (fl_ecef2geodetic lk x y z None deg) as [[latf lonf] hf]. destruct N as (N1 & N2 & N3). split; [lra|]. split; [|lra]. intros PP. destruct (N2 ltac:(lra) ltac:(lra)) as (k & N2'). clear N2. rename N2' into N2. exists k. apply Rle_trans with (1 := N2). apply Rplus_le_compat_l.
  assert (0 <= / hypot x y). { pose proof (hypot_nonneg x y) as [Q|Q]; [left; now apply Rinv_0_lt_compat|rewrite <- Q, Rinv_0; lra]. }
  unfold Rdiv. apply Rmult_le_compat_r; lra.
Qed.
Lemma eps_bound k h B : 0 <= k <= 101 -> 0 < k -> Rabs h <= 10000 -> 0 <= B <= 1000000 -> 0 < k * uu * (reach None h + 3 * B) <= 1141 / 10 ^ 10.
Proof.
  intros K K0 H HB. unfold reach. cbn [ell_a]. pose proof (Rabs_pos h). set (t := 10 / 9 * 6378137 + Rabs h + 3 * B). assert (T : 0 < t <= 10096819) by (unfold t; lra). assert (U : 0 < uu <= 111023 / 10 ^ 21) by (unfold uu; lra). clearbody t. split; [repeat apply Rmult_lt_0_compat; lra|].
  assert (uu * t <= 111023 / 10 ^ 21 * 10096819) by (apply Rmult_le_compat; lra). rewrite Rmult_assoc. apply Rle_trans with (101 * (uu * t)); [apply Rmult_le_compat_r; [apply Rmult_le_pos; lra|lra]|lra].
Qed.

(** ** C96 *)
(** From a displacement in the local frame. *)
Theorem C96_enu2geodetic : forall lk e n u lat0 lon0 h0 lat lon h deg, libm2_ok lk -> site_ok lat0 lon0 h0 deg -> Rabs h0 <= 10000 ->
  Rabs e <= 1000000 -> Rabs n <= 1000000 -> Rabs u <= 1000000 ->
  geodetic2ecef lat lon h None deg = enu2ecef e n u lat0 lon0 h0 None deg -> Rabs lat <= quarter deg -> -999 <= h <= 9999 ->
  let '(x, y, z) := fl_enu2ecef (l_base lk) e n u lat0 lon0 h0 None deg in
  far x -> far y -> far z -> locates deg lat lon h (hypot x y) (fl_enu2geodetic lk e n u lat0 lon0 h0 None deg).
Proof.
  intros lk e n u lat0 lon0 h0 lat lon h deg M S H0 He Hn Hu G L H. assert (HB : / 10 ^ 300 <= 1000000) by (pose proof e300; pose proof uu_small; lra). pose proof (C92_enu2ecef (l_base lk) e n u lat0 lon0 h0 1000000 None deg (proj1 M) wgs_axes S He Hn Hu HB) as W. unfold fl_enu2geodetic.
  assert (DB : let '(x, y, z) := fl_enu2ecef (l_base lk) e n u lat0 lon0 h0 None deg in double x /\ double y /\ double z) by (unfold fl_enu2ecef; destruct (fl_geodetic2ecef _ _ _ _ _ _) as [[? ?] ?]; destruct (fl_enu2uvw _ _ _ _ _ _ _) as [[? ?] ?]; refine (conj _ (conj _ _)); apply rnd_double).
  destruct (fl_enu2ecef (l_base lk) e n u lat0 lon0 h0 None deg) as [[x y] z]. destruct DB as (Dx & Dy & Dz). intros Fx Fy Fz. apply (locate lk lat lon h x y z _ deg _ M Dx Dy Dz Fx Fy Fz L H (eps_bound 66 h0 1000000 ltac:(lra) ltac:(lra) H0 ltac:(lra)) G W).
Qed.
Theorem C96_ned2geodetic : forall lk n e d lat0 lon0 h0 lat lon h deg, libm2_ok lk -> site_ok lat0 lon0 h0 deg -> Rabs h0 <= 10000 ->
  Rabs n <= 1000000 -> Rabs e <= 1000000 -> Rabs d <= 1000000 ->
  geodetic2ecef lat lon h None deg = ned2ecef n e d lat0 lon0 h0 None deg -> Rabs lat <= quarter deg -> -999 <= h <= 9999 ->
  let '(x, y, z) := fl_ned2ecef (l_base lk) n e d lat0 lon0 h0 None deg in
  far x -> far y -> far z -> locates deg lat lon h (hypot x y) (fl_ned2geodetic lk n e d lat0 lon0 h0 None deg).
Proof.
  intros lk n e d lat0 lon0 h0 lat lon h deg M S H0 Hn He Hd G L H. pose proof (C96_enu2geodetic lk e n (- d) lat0 lon0 h0 lat lon h deg M S H0 He Hn ltac:(now rewrite Rabs_Ropp) G L H) as A. exact A.
Qed.
(** From azimuth, elevation and slant range. *)
Theorem C96_aer2geodetic : forall lk az el sr lat0 lon0 h0 lat lon h deg, libm2_ok lk -> site_ok lat0 lon0 h0 deg -> Rabs h0 <= 10000 ->
  double az -> double el -> Rabs az <= full deg -> Rabs el <= quarter deg -> / 10 ^ 300 <= Rabs sr <= 1000000 ->
  geodetic2ecef lat lon h None deg = aer2ecef az el sr lat0 lon0 h0 None deg -> Rabs lat <= quarter deg -> -999 <= h <= 9999 ->
  let '(x, y, z) := fl_aer2ecef (l_base lk) az el sr lat0 lon0 h0 None deg in
  far x -> far y -> far z -> locates deg lat lon h (hypot x y) (fl_aer2geodetic lk az el sr lat0 lon0 h0 None deg).
Proof.
  intros lk az el sr lat0 lon0 h0 lat lon h deg M S H0 Da De Ha He (Hs & Hs') G L H. pose proof (C92_aer2ecef (l_base lk) az el sr lat0 lon0 h0 None deg (proj1 M) wgs_axes S Da De Ha He Hs) as W. unfold fl_aer2geodetic. pose proof (Rabs_pos sr) as S0. pose proof (eps_bound 101 h0 (Rabs sr) ltac:(lra) ltac:(lra) H0 (conj S0 Hs')) as EB. clear Hs.
  assert (DB : let '(x, y, z) := fl_aer2ecef (l_base lk) az el sr lat0 lon0 h0 None deg in double x /\ double y /\ double z) by (unfold fl_aer2ecef; destruct (fl_geodetic2ecef _ _ _ _ _ _) as [[? ?] ?]; destruct (fl_aer2enu _ _ _ _ _) as [[? ?] ?]; destruct (fl_enu2uvw _ _ _ _ _ _ _) as [[? ?] ?]; refine (conj _ (conj _ _)); apply rnd_double).
  destruct (fl_aer2ecef (l_base lk) az el sr lat0 lon0 h0 None deg) as [[x y] z]. destruct DB as (Dx & Dy & Dz). intros Fx Fy Fz. apply (locate lk lat lon h x y z _ deg _ M Dx Dy Dz Fx Fy Fz L H EB G W).
Qed.
(** A target 300 m up, 200 m north and 100 m east of a site on the equator: its true
    coordinates exist in the range, and the computed position is in the covered region. *)
Example C96_nonvacuous : site_ok 0 0 0 true /\
  (exists lat lon h, geodetic2ecef lat lon h None true = enu2ecef 100 200 300 0 0 0 None true /\ Rabs lat <= quarter true /\ -999 <= h <= 9999) /\
  let '(x, y, z) := fl_enu2ecef (l_base libm2_rounding) 100 200 300 0 0 0 None true in far x /\ far y /\ far z /\ 1 / 1000 <= hypot x y.
Proof.
  assert (ST : site_ok 0 0 0 true) by (unfold site_ok, quarter, full; rewrite Rabs_R0; refine (conj _ (conj _ (conj _ (conj _ _)))); [apply (double_int 0); reflexivity|apply (double_int 0); reflexivity|apply (double_int 0); reflexivity|lra|lra]).
  assert (E : enu2ecef 100 200 300 0 0 0 None true = (6378437, 100, 200)).
  { unfold enu2ecef. rewrite (L_ecef.g2e_unfold None I). cbv zeta. unfold enu2uvw. cbv zeta. replace (as_rad true 0) with 0 by (unfold as_rad; lra). replace (rad_in true 0) with 0 by (unfold rad_in, radians; lra). rewrite cos_0, sin_0. cbn [ell_a ell_b]. replace (hypot (6378137 * 1) (635675231424518 / 100000000 * 0)) with 6378137; [|unfold hypot; replace ((6378137 * 1) ^ 2 + (635675231424518 / 100000000 * 0) ^ 2) with (6378137 ^ 2) by ring; rewrite sqrt_pow2; lra]. f_equal; [f_equal|]; field. }
  split; [exact ST|]. split.
  - destruct (C94_every_position None true 6378437 100 200 I ltac:(cbn [ell_a ell_b]; lra) ltac:(left; lra)) as (lat & lon & h & H1 & _ & H3 & H4 & H5). exists lat, lon, h. rewrite E. split; [exact H3|]. split; [apply Rabs_le; lra|]. cbn [ell_a ell_b] in H4, H5. split; [apply Rle_trans with 0; [lra|apply H4; lra]|].
    rewrite Rabs_pos_eq in H5 by (apply H4; lra). rewrite Rabs_pos_eq in H5 by lra. lra.
  - assert (HB : / 10 ^ 300 <= 1000000) by (pose proof e300; pose proof uu_small; lra). pose proof (C92_enu2ecef libm_correct 100 200 300 0 0 0 1000000 None true (proj1 C92_nonvacuous) wgs_axes ST ltac:(rewrite Rabs_pos_eq; clear HB; lra) ltac:(rewrite Rabs_pos_eq; clear HB; lra) ltac:(rewrite Rabs_pos_eq; clear HB; lra) HB) as W. clear HB. rewrite E in W.
    pose proof (eps_bound 66 0 1000000 ltac:(lra) ltac:(lra) ltac:(rewrite Rabs_R0; lra) ltac:(lra)) as EB. set (eps := 66 * uu * _) in *. clearbody eps. cbn [l_base libm2_rounding].
    assert (DB : let '(x, y, z) := fl_enu2ecef libm_correct 100 200 300 0 0 0 None true in double x /\ double y /\ double z) by (unfold fl_enu2ecef; destruct (fl_geodetic2ecef _ _ _ _ _ _) as [[? ?] ?]; destruct (fl_enu2uvw _ _ _ _ _ _ _) as [[? ?] ?]; refine (conj _ (conj _ _)); apply rnd_double).
    destruct (fl_enu2ecef libm_correct 100 200 300 0 0 0 None true) as [[x y] z]. destruct DB as (D1 & D2 & D3). destruct W as (W1 & W2 & W3). apply Rabs_def2 in W1, W2, W3.
    assert (P80 : / 10 ^ 80 <= 1) by (rewrite <- Rinv_1; apply Rinv_le_contravar; [lra|apply pow_R1_Rle; lra]). set (i := / 10 ^ 80) in *. assert (FF : forall v, 1 <= v -> far v) by (intros v V; right; fold i; rewrite Rabs_pos_eq; lra). clearbody i.
    assert (HH : 1 / 1000 <= hypot x y) by (assert (BX : 3000000 <= x) by lra; clear - BX; apply Rle_trans with x; [lra|]; unfold hypot; apply Rle_trans with (sqrt (x ^ 2)); [rewrite sqrt_pow2; lra|apply sqrt_le_1_alt; pose proof (pow2_ge_0 y); lra]). split; [apply FF; lra|]. split; [apply FF; lra|]. split; [apply FF; lra|exact HH].
Qed.
