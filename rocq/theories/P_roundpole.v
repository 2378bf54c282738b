(** Property C93, continued: ecef2geodetic in binary64 for points on the polar axis. *)
From Coq Require Import Reals ZArith Lra Lia Psatz.
From Flocq Require Import Core.
From Verif Require Import PyMath L_PyMath M_ellipsoid M_ecef M_float M_floatenu M_floatgeo Spec Spec_float P_float L_float P_rounding L_float2 L_floatpi L_floatgeo L_floatpole P_stable P_roundgeo.
From Verif Require L_ell L_ecef L_aer L_vin3.
Open Scope R_scope.

(** For (0, 0, z), where [point_ok] does not apply: latitude a quarter turn (with the sign of z) within
    10 half-ulps of 1 rad, longitude zero within 9, and the altitude |z| - b within 20
    half-ulps of |z|, except possibly for its sign when the point is a pole of the ellipsoid to
    within rounding. *)
Theorem C93_polar_axis : forall lk z ell deg, libm2_ok lk -> axes_ok ell -> double z -> 85 / 100 * ell_a ell <= Rabs z <= 10 ^ 40 ->
  let '(latf, lonf, hf) := fl_ecef2geodetic lk 0 0 z ell deg in
  Rabs (latf - (if Rlt_dec 0 z then quarter deg else - quarter deg)) <= deg_out deg (10 * uu) /\
  Rabs lonf <= deg_out deg (9 * uu) /\
  Rabs (Rabs hf - Rabs (Rabs z - ell_b ell)) <= 20 * uu * Rabs z /\
  (10 * uu < Rabs ((z / ell_b ell) ^ 2 - 1) -> Rabs (hf - (Rabs z - ell_b ell)) <= 20 * uu * Rabs z).
Proof.
  intros lk z ell deg M AX Dz Hz. unfold fl_ecef2geodetic. cbv zeta. destruct AX as (Ha & Hb).
  pose proof (ax_a ell) as XA. pose proof (ax_b ell) as XB. pose proof uu_pos as U0. pose proof uu_small as U1. pose proof L_vin3.pi_315 as P3. pose proof PI_RGT_0 as P0.
  set (s := if Rlt_dec 0 z then 1 else -1). assert (Hs : s = 1 \/ s = -1) by (unfold s; destruct (Rlt_dec 0 z); lra).
  assert (ZN : z <> 0) by (intros ->; rewrite Rabs_R0 in Hz; lra).
  assert (Sz : z = s * Rabs z) by (unfold s; destruct (Rlt_dec 0 z); [rewrite Rabs_pos_eq by lra; ring|rewrite Rabs_left by lra; ring]).
  assert (HY : l_hypot (l_base lk) 0 0 = 0) by (destruct M as ((_ & _ & _ & _ & _ & _ & _ & _ & _ & _ & Q) & _); exact Q).
  assert (EB : fl_beta lk (resolve_ellipsoid ell) 0 0 z = s * (cpi / 2)).
  { unfold fl_beta. cbv zeta. rewrite HY, pole_double. replace (if isclose0 z then 0 else if Rlt_dec 0 z then cpi / 2 else - (cpi / 2)) with (s * (cpi / 2)).
    - destruct (Req_EM_T _ 0) as [_|_]; [reflexivity|]. destruct (Req_EM_T 0 0) as [_|Q]; [reflexivity|now contradict Q].
    - unfold isclose0, s. destruct (Rle_dec _ _) as [Q|_]; [exfalso; lra|]. destruct (Rlt_dec 0 z); ring. }
  rewrite EB, HY, XA, XB. set (a := ell_a ell) in *. set (b := ell_b ell) in *.
  pose proof (lat_pole lk M a b s Ha Hb Hs) as HL. pose proof (alt_pole lk M a b s z Ha Hb Hs Hz Sz) as HA.
  assert (DM : forall k k', k <= k' -> deg_out deg (k * uu) <= deg_out deg (k' * uu)).
  { intros k k' K. assert (k * uu <= k' * uu) by (apply Rmult_le_compat_r; lra). unfold deg_out. destruct deg; [|assumption]. unfold degrees, Rdiv. apply Rmult_le_compat_r; [left; apply Rinv_0_lt_compat; lra|]. lra. }
  split; [|split].
  - set (vf := l_atan lk _) in *. assert (V : Rabs vf < PI / 2) by (destruct M as (_ & _ & _ & _ & _ & Q & _); apply Q; apply rnd_double).
    assert (DV : double vf) by (destruct M as (_ & _ & _ & _ & _ & _ & _ & _ & _ & _ & Q & _); apply Q).
    replace (if Rlt_dec 0 z then quarter deg else - quarter deg) with (deg_out deg (s * (PI / 2))) by (unfold s, deg_out, quarter, degrees; destruct (Rlt_dec 0 z), deg; field; lra).
    apply Rle_trans with (1 := deg_err lk deg vf _ 5 M DV ltac:(lra) ltac:(lra) HL ltac:(lra)). apply DM. lra.
  - assert (D0 : double 0) by apply generic_format_0.
    assert (Q8 : Rabs (l_atan2 lk 0 0 - 0) <= 8 * uu) by (rewrite <- atan2_00 at 3; destruct M as (_ & _ & _ & _ & _ & _ & Q & _); apply Q; assumption).
    assert (DV : double (l_atan2 lk 0 0)) by (destruct M as (_ & _ & _ & _ & _ & _ & _ & _ & _ & _ & _ & Q & _); apply Q).
    assert (V : Rabs (l_atan2 lk 0 0) <= 1 / 100) by (rewrite Rminus_0_r in Q8; lra).
    pose proof (deg_err lk deg _ _ 8 M DV ltac:(lra) ltac:(lra) Q8 ltac:(lra)) as R1. replace (deg_out deg 0) with 0 in R1 by (unfold deg_out, degrees; destruct deg; [field; lra|reflexivity]). rewrite Rminus_0_r in R1. apply Rle_trans with (1 := R1). apply DM. lra.
  - set (hf := l_hypot (l_base lk) (fl_sub z _) _) in *.
    assert (AB : Rabs (Rabs hf - Rabs (Rabs z - b)) <= 20 * uu * Rabs z) by (apply Rle_trans with (2 := HA); rewrite <- (Rabs_Rabsolu (Rabs z - b)) at 1; apply Rabs_triang_inv2).
    split; [destruct (fl_inside _ _ _ _ _); rewrite ?Rabs_Ropp; exact AB|]. intros HS.
    assert (SI : fl_inside lk (resolve_ellipsoid ell) 0 0 z = (if Rlt_dec (Rabs z) b then true else false)).
    { unfold fl_inside. cbv zeta. rewrite XA, XB. fold a b. assert (F0 : far 0) by (left; reflexivity). assert (FZ : far z) by (right; apply Rle_trans with (/ 10 ^ 1); [apply inv_le; lia|simpl; lra]).
      assert (RZ : sqrt (0 ^ 2 + 0 ^ 2 + z ^ 2) = Rabs z) by (replace (0 ^ 2 + 0 ^ 2 + z ^ 2) with (Rabs z ^ 2) by (rewrite pow2_abs; ring); apply sqrt_pow2, Rabs_pos).
      pose proof (inside_er lk M a b 0 0 z Ha Hb (generic_format_0 _ _) (generic_format_0 _ _) Dz F0 F0 FZ ltac:(rewrite RZ; exact Hz)) as (IE & I0).
      assert (GS : gS a b 0 0 z = (z / b) ^ 2) by (unfold gS; field; lra). rewrite GS in IE, I0. set (sf := fl_add (fl_add _ _) _) in *. change (fl_add (fl_add _ _) _) with sf. clearbody sf.
      assert (QB : (z / b) ^ 2 < 1 <-> Rabs z < b). { rewrite <- (pow2_abs (z / b)). unfold Rdiv. rewrite Rabs_mult, Rabs_inv, (Rabs_pos_eq b) by lra. assert (BP : 0 < b) by lra. pose proof (Rabs_pos z) as ZP. set (w := Rabs z) in *. set (q := w * / b). assert (W : w = q * b) by (unfold q; field; lra). assert (0 <= q) by (apply Rmult_le_pos; [lra|left; apply Rinv_0_lt_compat, BP]). rewrite W. clear - BP H. split; intros; nra. }
      set (q := (z / b) ^ 2) in *. clearbody q. clear - IE HS I0 U0 U1 QB. destruct (Rlt_dec sf 1) as [L|L], (Rlt_dec (Rabs z) b) as [L'|L']; try reflexivity; exfalso; apply Rabs_le_inv in IE.
      - assert (1 <= q) by (apply Rnot_lt_le; intros Q; apply L', QB, Q). rewrite Rabs_pos_eq in HS by lra. assert (92 / 10 * uu * q <= 93 / 10 * uu * 1 + 93 / 10 * uu * (q - 1)) by nra. assert (93 / 10 * uu * (q - 1) <= 1 / 100 * (q - 1)) by (apply Rmult_le_compat_r; lra). lra.
      - assert (q < 1) by (apply QB, L'). rewrite Rabs_left in HS by lra. assert (92 / 10 * uu * q <= 92 / 10 * uu * 1) by (apply Rmult_le_compat_l; lra). lra. }
    rewrite SI. destruct (Rlt_dec (Rabs z) b) as [L|L].
    + rewrite (Rabs_left (Rabs z - b)) in HA by lra. replace (- hf - (Rabs z - b)) with (- (hf - - (Rabs z - b))) by ring. now rewrite Rabs_Ropp.
    + now rewrite (Rabs_pos_eq (Rabs z - b)) in HA by lra.
Qed.

(** The Earth: a latitude error below 10^-13 degrees and the altitude to 3 * 10^-8 m, for
    every point of the axis from 5430 km to 10000 km from the centre and not within 10^-8 m of the pole. *)
Theorem C93_polar_axis_earth : forall lk z, libm2_ok lk -> double z -> 5430000 <= Rabs z <= 10 ^ 7 ->
  let '(latf, lonf, hf) := fl_ecef2geodetic lk 0 0 z None true in
  Rabs (latf - (if Rlt_dec 0 z then 90 else -90)) <= 1 / 10 ^ 13 /\ Rabs lonf <= 1 / 10 ^ 13 /\
  (1 / 10 ^ 8 <= Rabs (Rabs z - ell_b None) -> Rabs (hf - (Rabs z - ell_b None)) <= 3 / 10 ^ 8).
Proof.
  intros lk z M Dz Hz. pose proof wgs_axes as AX.
  pose proof (C93_polar_axis lk z None true M AX Dz) as T. destruct (fl_ecef2geodetic lk 0 0 z None true) as [[latf lonf] hf].
  change (ell_a None) with 6378137 in T. assert (Hz' : 85 / 100 * 6378137 <= Rabs z <= 10 ^ 40) by (assert (10 ^ 7 <= 10 ^ 40) by (apply big_le; lia); lra). destruct (T Hz') as (T1 & T2 & _ & T4). clear T.
  pose proof uu_pos as U0. pose proof L_vin3.pi_31 as P1. assert (DU : forall k, 0 <= k <= 10 -> deg_out true (k * uu) <= 1 / 10 ^ 13).
  { intros k K. unfold deg_out, degrees. assert (I : / PI <= 10 / 31) by (replace (10 / 31) with (/ (31 / 10)) by field; apply Rinv_le_contravar; lra). assert (0 < / PI) by (apply Rinv_0_lt_compat; lra). unfold Rdiv. apply Rle_trans with (10 * uu * 180 * (10 / 31)); [|unfold uu; lra]. apply Rmult_le_compat; try lra; [|]; assert (0 <= k * uu <= 10 * uu) by (split; [apply Rmult_le_pos|apply Rmult_le_compat_r]; lra); lra. }
  split; [|split].
  - apply Rle_trans with (2 := DU 10 ltac:(lra)). replace (if Rlt_dec 0 z then 90 else -90) with (if Rlt_dec 0 z then quarter true else - quarter true) by (unfold quarter; destruct (Rlt_dec 0 z); ring). exact T1.
  - apply Rle_trans with (1 := T2). apply DU. lra.
  - intros HS. assert (B : 6356752 <= ell_b None <= 6356753) by (unfold ell_b; lra). set (b := ell_b None) in *. clearbody b.
    apply Rle_trans with (20 * uu * Rabs z); [apply T4|assert (20 * uu * Rabs z <= 20 * uu * 10 ^ 7) by (apply Rmult_le_compat_l; lra); unfold uu in *; lra].
    rewrite <- (pow2_abs (z / b)). unfold Rdiv. rewrite Rabs_mult, Rabs_inv, (Rabs_pos_eq b) by lra. set (w := Rabs z) in *. clearbody w. replace ((w * / b) ^ 2 - 1) with ((w - b) * ((w + b) * / b ^ 2)) by (field; lra).
    rewrite Rabs_mult. assert (G : 29 / 10 ^ 8 <= (w + b) * / b ^ 2). { apply Rmult_le_reg_r with (b ^ 2); [nra|]. rewrite Rmult_assoc, Rinv_l, Rmult_1_r by nra. nra. }
    rewrite (Rabs_pos_eq ((w + b) * / b ^ 2)) by lra. apply Rlt_le_trans with (1 / 10 ^ 8 * (29 / 10 ^ 8)); [unfold uu; lra|]. apply Rmult_le_compat; lra.
Qed.

Example C93_polar_axis_example : libm2_ok libm2_rounding /\ double (-7000000) /\ 5430000 <= Rabs (-7000000) <= 10 ^ 7 /\
  let '(latf, lonf, hf) := fl_ecef2geodetic libm2_rounding 0 0 (-7000000) None true in
  Rabs (latf - -90) <= 1 / 10 ^ 13 /\ Rabs lonf <= 1 / 10 ^ 13 /\ 643247 <= hf <= 643248.
Proof.
  assert (D : double (-7000000)). { unfold double. replace (-7000000) with (F2R (Float radix2 (-7000000) 0)) by (unfold F2R; simpl; lra). apply generic_format_FLT. exists (Float radix2 (-7000000) 0); [reflexivity|simpl; lia|simpl; lia]. }
  assert (B : 5430000 <= Rabs (-7000000) <= 10 ^ 7) by (rewrite Rabs_left by lra; lra).
  split; [exact libm2_rounding_ok|]. split; [exact D|]. split; [exact B|].
  pose proof (C93_polar_axis_earth libm2_rounding (-7000000) libm2_rounding_ok D B) as T. destruct (fl_ecef2geodetic _ _ _ _ _ _) as [[latf lonf] hf]. destruct T as (T1 & T2 & T3).
  destruct (Rlt_dec 0 (-7000000)) as [Q|_] in T1; [lra|]. split; [exact T1|]. split; [exact T2|]. rewrite (Rabs_left (-7000000)) in T3 by lra. assert (EB : 6356752 + 3 / 10 <= ell_b None <= 6356752 + 4 / 10) by (unfold ell_b; lra). rewrite (Rabs_pos_eq (- -7000000 - ell_b None)) in T3 by lra. specialize (T3 ltac:(lra)). apply Rabs_le_inv in T3. lra.
Qed.
(** [point_ok] holds a millimetre from the axis. *)
Example C93_near_axis : point_ok None (/ 1024) 0 6357000.
Proof.
  assert (P80 : / 10 ^ 80 <= / 10 ^ 4) by (apply inv_le; lia).
  unfold point_ok. split; [|split; [apply generic_format_0|split; [apply (double_int 6357000); reflexivity|]]].
  - unfold double. replace (/ 1024) with (F2R (Float radix2 1 (-10))) by (unfold F2R; simpl; lra). apply generic_format_FLT. exists (Float radix2 1 (-10)); [reflexivity|simpl; lia|simpl; lia].
  - split; [right; rewrite Rabs_pos_eq by lra; set (w := / 10 ^ 80) in *; lra|]. split; [left; reflexivity|]. split; [right; rewrite Rabs_pos_eq by lra; set (w := / 10 ^ 80) in *; lra|].
    split; [|left; lra]. cbn [ell_a]. unfold vnorm, vdot. split.
    + rewrite <- (sqrt_pow2 (85 / 100 * 6378137)) by lra. apply sqrt_le_1_alt. lra.
    + apply Rle_trans with 7000000; [rewrite <- (sqrt_pow2 7000000) by lra; apply sqrt_le_1_alt; lra|]. apply Rle_trans with (10 ^ 7); [lra|apply big_le; lia].
Qed.

Lemma norm_earth_lo lat lon h deg : 6356752 - Rabs h <= vnorm (geodetic2ecef lat lon h None deg).
Proof.
  assert (Hok : ell_ok None) by exact I. rewrite (L_ecef.g2e_normal None Hok).
  pose proof (L_ecef.g2e_surface None Hok lat lon deg) as S. pose proof (L_ecef.unit_normal_unit (as_rad deg lat) (as_rad deg lon)) as U. destruct (geodetic2ecef lat lon 0 None deg) as [[x y] z]. destruct (unit_normal _ _) as [[u v] w].
  pose proof (L_aer.vnorm_triangle (vadd (x, y, z) (vscale h (u, v, w))) (vscale (- h) (u, v, w))) as T. replace (vadd (vadd (x, y, z) (vscale h (u, v, w))) (vscale (- h) (u, v, w))) with (x, y, z) in T by (unfold vadd, vscale; f_equal; [f_equal|]; ring).
  assert (N : vnorm (vscale (- h) (u, v, w)) = Rabs h). { unfold vnorm, vscale, vdot in *. replace (_ + _) with (h ^ 2 * (u * u + v * v + w * w)) by ring. rewrite U, Rmult_1_r, <- pow2_abs. apply sqrt_pow2, Rabs_pos. }
  rewrite N in T. assert (B : 6356752 <= vnorm (x, y, z)); [|lra]. clear T N.
  unfold on_ellipsoid in S. cbn [ell_a ell_b] in S. unfold vnorm, vdot. apply Rle_trans with (sqrt (6356752 ^ 2)); [rewrite sqrt_pow2; lra|]. apply sqrt_le_1_alt.
  pose proof (pow2_ge_0 x) as X. pose proof (pow2_ge_0 y) as Y. assert (I : / 6378137 ^ 2 <= / (635675231424518 / 100000000) ^ 2) by lra. pose proof (Rmult_le_compat_l _ _ _ X I) as IX. pose proof (Rmult_le_compat_l _ _ _ Y I) as IY. unfold Rdiv in S. clear - S IX IY. lra.
Qed.
(** The exact coordinates of a point of the polar axis. *)
Lemma pole_position lon h (s : R) deg : s = 1 \/ s = -1 -> geodetic2ecef (s * quarter deg) lon h None deg = (0, 0, s * (ell_b None + h)).
Proof.
  intros Hs. rewrite (L_ecef.g2e_unfold None I). cbv zeta. replace (as_rad deg (s * quarter deg)) with (s * (PI / 2)) by (unfold as_rad, quarter; destruct deg; field).
  assert (C : cos (s * (PI / 2)) = 0) by (destruct Hs as [-> | ->]; [replace (1 * (PI / 2)) with (PI / 2) by ring; apply cos_PI2|replace (-1 * (PI / 2)) with (- (PI / 2)) by ring; rewrite cos_neg; apply cos_PI2]).
  assert (Q : sin (s * (PI / 2)) = s) by (destruct Hs as [-> | ->]; [replace (1 * (PI / 2)) with (PI / 2) by ring; apply sin_PI2|replace (-1 * (PI / 2)) with (- (PI / 2)) by ring; rewrite sin_neg, sin_PI2; ring]).
  rewrite C, Q. assert (B : 0 < ell_b None) by (cbn [ell_b]; lra). set (b := ell_b None) in *. replace (hypot (ell_a None * 0) (b * s)) with b.
  - assert (S2 : s * s = 1) by (destruct Hs as [-> | ->]; ring). f_equal; [f_equal|]; try ring. field. lra.
  - unfold hypot. replace ((ell_a None * 0) ^ 2 + (b * s) ^ 2) with (b ^ 2) by (destruct Hs as [-> | ->]; ring). symmetry. apply sqrt_pow2. lra.
Qed.

(** The doubles near a position of the Earth, with no exception for the axis: the computed
    coordinates are those of the position, longitude apart when the axis is too near for it
    to mean anything. *)
Theorem C93_everywhere_near_earth : forall lk lat lon h x y z d deg, libm2_ok lk -> double x -> double y -> double z -> far x -> far y -> far z ->
  Rabs lat <= quarter deg -> -1000 + d <= h <= 10000 - d -> d <= 2 -> vdist3 (x, y, z) (geodetic2ecef lat lon h None deg) <= d ->
  let '(latf, lonf, hf) := fl_ecef2geodetic lk x y z None deg in
  Rabs (as_rad deg latf - as_rad deg lat) <= 32 / 10 ^ 15 + d / 6318000 /\
  (0 < hypot x y -> 2000 * d <= hypot x y -> exists k : Z, Rabs (as_rad deg lonf - as_rad deg lon - IZR k * (2 * PI)) <= 23 / 10 ^ 16 + 1004 / 1000 * d / hypot x y) /\
  Rabs (hf - h) <= 34 / 10 ^ 8 + d.
Proof.
  intros lk lat lon h x y z d deg M Dx Dy Dz Fx Fy Fz L H DS D. pose proof (norm_earth_lo lat lon h deg) as NL. pose proof (norm_earth lat lon h deg) as NU.
  assert (D0 : 0 <= d) by (apply Rle_trans with (2 := D); apply sqrt_pos). assert (AH : Rabs h <= 10000) by (apply Rabs_le; lra).
  assert (NN : 6346000 <= vnorm (x, y, z) <= 6400000).
  { set (P := geodetic2ecef lat lon h None deg) in *. pose proof (L_aer.vnorm_triangle (vsub (x, y, z) P) P) as T1. pose proof (L_aer.vnorm_triangle (vsub P (x, y, z)) (x, y, z)) as T2. fold (vdist3 (x, y, z) P) in T1. fold (vdist3 P (x, y, z)) in T2. rewrite dist_sym in T2. destruct P as [[x' y'] z'].
    replace (vadd (vsub (x, y, z) (x', y', z')) (x', y', z')) with (x, y, z) in T1 by (unfold vadd, vsub; f_equal; [f_equal|]; ring). replace (vadd (vsub (x', y', z') (x, y, z)) (x, y, z)) with (x', y', z') in T2 by (unfold vadd, vsub; f_equal; [f_equal|]; ring). lra. }
  assert (XY : (x <> 0 \/ y <> 0) \/ (x = 0 /\ y = 0)) by (destruct (Req_dec x 0), (Req_dec y 0); tauto). destruct XY as [XY|(X0 & Y0)].
  - assert (PT : point_ok None x y z). { assert (B40 : 6400000 <= 10 ^ 40) by (apply Rle_trans with (10 ^ 7); [lra|apply big_le; lia]). unfold point_ok. change (ell_a None) with 6378137. set (W := 10 ^ 40) in *. clearbody W. repeat (split; [assumption|]). split; [lra|exact XY]. }
    pose proof (C93_nearby lk lat lon h x y z d deg M PT L H DS D) as T. destruct (fl_ecef2geodetic lk x y z None deg) as [[latf lonf] hf]. destruct T as (T1 & T2 & T3). split; [exact T1|]. split; [intros _; exact T2|exact T3].
  - subst x y. assert (RZ : vnorm (0, 0, z) = Rabs z) by (unfold vnorm, vdot; replace (0 * 0 + 0 * 0 + z * z) with (Rabs z ^ 2) by (rewrite pow2_abs; ring); apply sqrt_pow2, Rabs_pos). rewrite RZ in NN.
    set (s := if Rlt_dec 0 z then 1 else -1). assert (Hs : s = 1 \/ s = -1) by (unfold s; destruct (Rlt_dec 0 z); lra).
    assert (Sz : z = s * Rabs z) by (unfold s; destruct (Rlt_dec 0 z); [rewrite Rabs_pos_eq by lra; ring|rewrite Rabs_left1 by lra; ring]).
    pose proof (pole_position lon (Rabs z - ell_b None) s deg Hs) as PP. replace (s * (ell_b None + (Rabs z - ell_b None))) with z in PP by (rewrite Sz at 1; ring).
    assert (LQ : Rabs (s * quarter deg) <= quarter deg). { assert (0 < quarter deg) by (unfold quarter; pose proof PI_RGT_0; destruct deg; lra). destruct Hs as [E | E]; rewrite E; apply Rabs_le; lra. }
    assert (EB : 6356752 <= ell_b None <= 6356753) by (unfold ell_b; lra).
    assert (HQ : -1000 <= Rabs z - ell_b None). { assert (RH : 6335000 <= rho_min None) by (unfold rho_min, ell_a, ell_b; lra). pose proof (C94_height None deg (s * quarter deg) lon (Rabs z - ell_b None) lat lon h I ltac:(lra) ltac:(lra)) as Q. rewrite PP in Q. assert (Q' : Rabs (Rabs z - ell_b None - h) <= d) by lra. apply abs_bounds in Q'. lra. }
    pose proof (C94_earth deg (s * quarter deg) lon (Rabs z - ell_b None) lat lon h ltac:(lra) ltac:(lra) LQ L) as (CH & CL). rewrite PP in CH, CL. specialize (CL ltac:(lra)).
    pose proof (C93_polar_axis lk z None deg M wgs_axes Dz) as T. change (ell_a None) with 6378137 in T. assert (B40 : 6400000 <= 10 ^ 40) by (apply Rle_trans with (10 ^ 7); [lra|apply big_le; lia]). specialize (T ltac:(set (W := 10 ^ 40) in *; clearbody W; lra)). clear B40.
    destruct (fl_ecef2geodetic lk 0 0 z None deg) as [[latf lonf] hf]. destruct T as (T1 & _ & T3 & T4). pose proof uu_pos as U0. assert (U1 : uu <= 111023 / 10 ^ 21) by (unfold uu; lra).
    split; [|split].
    + replace (if Rlt_dec 0 z then quarter deg else - quarter deg) with (s * quarter deg) in T1 by (unfold s; destruct (Rlt_dec 0 z); ring). apply rad_lin in T1.
      replace (as_rad deg latf - as_rad deg lat) with ((as_rad deg latf - as_rad deg (s * quarter deg)) + (as_rad deg (s * quarter deg) - as_rad deg lat)) by ring. apply Rle_trans with (1 := Rabs_triang _ _).
      assert (V : vdist3 (0, 0, z) (geodetic2ecef lat lon h None deg) / 6318000 <= d / 6318000) by lra. lra.
    + intros P0. exfalso. revert P0. unfold hypot. replace (0 ^ 2 + 0 ^ 2) with 0 by ring. rewrite sqrt_0. lra.
    + assert (ZU : uu * Rabs z <= 111023 / 10 ^ 21 * 6400000) by (apply Rmult_le_compat; lra).
      assert (HZ : Rabs (hf - (Rabs z - ell_b None)) <= 34 / 10 ^ 8).
      { destruct (Rlt_le_dec (10 * uu) (Rabs ((z / ell_b None) ^ 2 - 1))) as [Q|Q]; [apply Rle_trans with (1 := T4 Q); lra|].
        clear T4. set (b := ell_b None) in *. clearbody b. rewrite <- (pow2_abs (z / b)) in Q. unfold Rdiv in Q. rewrite Rabs_mult, Rabs_inv, (Rabs_pos_eq b) in Q by lra. set (w := Rabs z) in *. clearbody w.
        replace ((w * / b) ^ 2 - 1) with ((w - b) * ((w + b) * / b ^ 2)) in Q by (field; lra). assert (G : / 6356753 <= (w + b) * / b ^ 2). { apply Rmult_le_reg_r with (b ^ 2); [nra|]. rewrite Rmult_assoc, Rinv_l, Rmult_1_r by nra. nra. }
        rewrite Rabs_mult, (Rabs_pos_eq ((w + b) * / b ^ 2)) in Q by lra. assert (Q1 : Rabs (w - b) * / 6356753 <= 10 * uu) by (apply Rle_trans with (2 := Q); apply Rmult_le_compat_l; [apply Rabs_pos|exact G]).
        assert (Q2 : Rabs (w - b) <= 10 * (111023 / 10 ^ 21) * 6356753) by lra. clear - T3 Q2 ZU. apply abs_bounds in Q2. apply Rabs_le. apply abs_bounds in T3. pose proof (Rabs_pos hf). assert (Rabs (w - b) <= 10 * (111023 / 10 ^ 21) * 6356753) by (apply Rabs_le; lra). pose proof (Rle_abs hf). pose proof (Rle_abs (- hf)) as HO. rewrite Rabs_Ropp in HO. lra. }
      replace (hf - h) with ((hf - (Rabs z - ell_b None)) + (Rabs z - ell_b None - h)) by ring. apply Rle_trans with (1 := Rabs_triang _ _). lra.
Qed.
(** There and back in binary64, polar axis included. *)
Theorem C93_round_trip_everywhere : forall lk lat lon h deg, libm2_ok lk -> site_ok lat lon h deg -> -999 <= h <= 9999 ->
  let '(x, y, z) := fl_geodetic2ecef (l_base lk) lat lon h None deg in
  far x -> far y -> far z ->
  let '(latf, lonf, hf) := fl_ecef2geodetic lk x y z None deg in
  Rabs (as_rad deg latf - as_rad deg lat) <= 5 / 10 ^ 14 /\
  (1 / 1000 <= hypot x y -> exists k : Z, Rabs (as_rad deg lonf - as_rad deg lon - IZR k * (2 * PI)) <= 23 / 10 ^ 16 + / 10 ^ 7 / hypot x y) /\
  Rabs (hf - h) <= 5 / 10 ^ 7.
Proof.
  intros lk lat lon h deg M ST H. pose proof (C92_geodetic2ecef (l_base lk) lat lon h None deg (proj1 M) wgs_axes ST) as W. destruct ST as (_ & _ & _ & L1 & L2).
  assert (DB : let '(x, y, z) := fl_geodetic2ecef (l_base lk) lat lon h None deg in double x /\ double y /\ double z) by (unfold fl_geodetic2ecef; cbv zeta; refine (conj _ (conj _ _)); apply rnd_double).
  destruct (fl_geodetic2ecef (l_base lk) lat lon h None deg) as [[x y] z]. destruct DB as (Dx & Dy & Dz). intros Fx Fy Fz. pose proof uu_pos as U0.
  assert (EP : 0 < 65 * uu * reach None h <= 5123 / 10 ^ 11).
  { unfold reach. cbn [ell_a]. assert (0 <= Rabs h <= 9999) by (split; [apply Rabs_pos|apply Rabs_le; lra]). assert (U : uu <= 11103 / 10 ^ 20) by (unfold uu; lra). set (t := 10 / 9 * 6378137 + Rabs h) in *. assert (0 < t <= 70969 * 100) by (unfold t; lra). clearbody t. split; [apply Rmult_lt_0_compat; lra|]. assert (uu * t <= 11103 / 10 ^ 20 * (70969 * 100)) by (apply Rmult_le_compat; lra). lra. }
  pose proof (near_dist _ _ _ W ltac:(lra)) as D. pose proof (C93_everywhere_near_earth lk lat lon h x y z (89 / 10 ^ 9) deg M Dx Dy Dz Fx Fy Fz L1 ltac:(lra) ltac:(lra) ltac:(lra)) as N.
  destruct (fl_ecef2geodetic lk x y z None deg) as [[latf lonf] hf]. destruct N as (N1 & N2 & N3). split; [lra|]. split; [|lra]. intros PP. destruct (N2 ltac:(lra) ltac:(lra)) as (k & N2'). clear N2. rename N2' into N2. exists k. apply Rle_trans with (1 := N2). apply Rplus_le_compat_l.
  assert (0 <= / hypot x y). { pose proof (hypot_nonneg x y) as [Q|Q]; [left; now apply Rinv_0_lt_compat|rewrite <- Q, Rinv_0; lra]. }
  unfold Rdiv. apply Rmult_le_compat_r; lra.
Qed.
