(** Property C93: binary64 rounding error of ecef2geodetic. *)
From Coq Require Import Reals ZArith Lra Lia Psatz.
From Flocq Require Import Core.
From Verif Require Import PyMath L_PyMath M_ellipsoid M_ecef M_float M_floatenu M_floatgeo Spec Spec_float P_float L_float P_rounding L_float2 L_floatgeo P_accuracy P_stable.
From Verif Require L_ell L_ecef L_aer L_ecefsurj L_vin3 L_lox.
Open Scope R_scope.

Lemma inside_iff e x y z : inside_dec e x y z = true <-> x ^ 2 / semimajor_axis e ^ 2 + y ^ 2 / semimajor_axis e ^ 2 + z ^ 2 / semiminor_axis e ^ 2 < 1.
Proof. unfold inside_dec. destruct (Rlt_dec _ 1); split; intros; try lra; try reflexivity; discriminate. Qed.

Section Main.
Variables (lk : libm2) (M : libm2_ok lk) (ell : option Ellipsoid) (x y z : R).
Hypothesis (AX : axes_ok ell) (FL : flat_ok ell) (PT : point_ok ell x y z).
Let e := resolve_ellipsoid ell.
Let a := ell_a ell. Let b := ell_b ell.
Let r := sqrt (x ^ 2 + y ^ 2 + z ^ 2).
Lemma ax_a : semimajor_axis e = a. Proof. apply L_ell.resolve_a. Qed.
Lemma ax_b : semiminor_axis e = b. Proof. apply L_ell.resolve_b. Qed.
Lemma r_vnorm : vnorm (x, y, z) = r. Proof. unfold vnorm, r, vdot. f_equal. ring. Qed.
Let Ha : 1 <= a <= 10 ^ 30 := proj1 AX.
Let Hb : 9 / 10 * a <= b <= a := proj2 AX.
Let B1 := gB1 a b x y z.
Lemma hyp_lo : / 10 ^ 80 <= hypot x y.
Proof.
  destruct PT as (_ & _ & _ & Fx & Fy & _ & _ & Hp). unfold hypot. assert (G : forall v w, far v -> v <> 0 -> / 10 ^ 80 <= sqrt (v ^ 2 + w ^ 2)).
  { intros v w [F|F] N; [contradiction|]. apply Rle_trans with (1 := F). rewrite <- (sqrt_pow2 (Rabs v)) by apply Rabs_pos. apply sqrt_le_1_alt. rewrite pow2_abs. pose proof (pow2_ge_0 w). lra. }
  destruct Hp as [N|N]; [now apply G|]. rewrite Rplus_comm. now apply G.
Qed.
Lemma beta_exact : you_beta e x y z = B1 /\ beta_scalar e x y z = B1.
Proof.
  pose proof hyp_lo as Hp. destruct PT as (Dx & Dy & Dz & Fx & Fy & Fz & Hr & _). pose proof r_vnorm as RV. rewrite RV in Hr. fold a in Hr.
  assert (E : you_E e = gE a b) by (unfold you_E, gE, gE2; now rewrite ax_a, ax_b).
  assert (U : you_u e x y z = gU a b x y z) by (unfold you_u, gU, gU2, gH, gA; now rewrite E).
  assert (Y : you_beta e x y z = B1).
  { unfold you_beta, B1, gB1, gcor, gB0, gq, gN, gW. rewrite E, U, ax_a, ax_b. rewrite (E_sq a b Ha Hb). reflexivity. }
  split; [exact Y|]. unfold beta_scalar. rewrite Y, U. pose proof (U_b a b x y z Ha Hb Hr) as UB. pose proof (r_pos a x y z Ha Hr) as RP. pose proof Hp as PL. pose proof (p10 80) as P0.
  destruct (Req_EM_T _ 0) as [Q|_]; [exfalso; lra|]. destruct (Req_EM_T (hypot x y) 0) as [Q|_]; [exfalso; rewrite Q in PL; lra|reflexivity].
Qed.
Lemma rl_nz k xf v : rl k xf v -> v <> 0 -> k + / 1000 <= 10000 -> xf <> 0. Proof. intros A B C. exact (proj2 (rl_inv _ _ _ A B C)). Qed.
Lemma beta_float : Rabs (fl_beta lk e x y z - B1) <= 230 * uu /\
  Rabs (l_atan lk (fl_mul (fl_div (rnd a) (rnd b)) (l_tan lk (fl_beta lk e x y z))) - atan (a / b * tan B1)) <= 270 * uu /\
  Rabs (l_hypot (l_base lk) (fl_sub z (fl_mul (rnd b) (l_sin (l_base lk) (fl_beta lk e x y z)))) (fl_sub (l_hypot (l_base lk) x y) (fl_mul (rnd a) (l_cos (l_base lk) (fl_beta lk e x y z))))
    - hypot (z - b * sin B1) (hypot x y - a * cos B1)) <= 420 * uu * r /\ 0 < cos B1.
Proof.
  pose proof hyp_lo as Hp. destruct PT as (Dx & Dy & Dz & Fx & Fy & Fz & Hr & _). pose proof r_vnorm as RV. rewrite RV in Hr. fold a in Hr. assert (Hf : a = b \/ b <= (1 - / 10 ^ 9) * a) by exact FL.
  pose proof (U_rl lk M a b x y z Ha Hb Hf Dx Dy Dz Fx Fy Fz Hr) as (_ & UP). pose proof (P_rl lk M a x y z Dx Dy Hr Hp) as PR. pose proof Hp as PL.
  pose proof (cf_rl lk M a b x y z) as CR. pose proof (ct_b lk M a b x y z) as CB.
  pose proof (Den_rl lk M a b x y z Ha Hb Hf Dx Dy Dz Fx Fy Fz Hr) as DR. pose proof (Den_lo a b x y z Ha Hb Hr _ CB) as DL. pose proof (aW_b a b x y z Ha Hb Hr) as ((WB & _) & _). pose proof (ar_pos a x y z Ha Hr) as AR.
  eassert (Eq : fl_beta lk e x y z = _).
  { unfold fl_beta. cbv zeta. unfold fl_u, fl_E. cbv zeta. rewrite ax_a, ax_b.
    destruct (Req_EM_T _ 0) as [Q|_]; [exfalso; revert Q; apply Rgt_not_eq; exact UP|].
    destruct (Req_EM_T _ 0) as [Q|_]; [exfalso; revert Q; apply (rl_nz _ _ _ PR); [apply Rgt_not_eq, Rlt_le_trans with (2 := PL); apply p10|lra]|].
    destruct (Req_EM_T _ 0) as [Q|_]; [exfalso; revert Q; apply (rl_nz _ _ _ CR); [apply Rgt_not_eq, CB|lra]|].
    destruct (Req_EM_T _ 0) as [Q|_]; [exfalso; revert Q; apply (rl_nz _ _ _ DR); [|lra]|reflexivity].
    apply Rgt_not_eq. apply Rlt_le_trans with (2 := proj1 DL). apply Rmult_lt_0_compat; [lra|]. apply Rmult_lt_0_compat; [fold r in WB, AR; lra|apply Rinv_0_lt_compat, CB]. }
  rewrite Eq. split; [exact (B1_err lk M a b x y z Ha Hb Hf Dx Dy Dz Fx Fy Fz Hr Hp)|]. split; [exact (lat_err lk M a b x y z Ha Hb Hf Dx Dy Dz Fx Fy Fz Hr Hp)|]. split; [exact (alt_err lk M a b x y z Ha Hb Hf Dx Dy Dz Fx Fy Fz Hr Hp)|].
  exact (proj1 (proj2 (proj2 (B1_cos lk M a b x y z Ha Hb Hf Dx Dy Dz Fx Fy Fz Hr)))).
Qed.
End Main.

Lemma deg_err (lk : libm2) (deg : bool) (v w k : R) : libm2_ok lk -> double v -> Rabs v <= 7 -> 0 <= k <= 1000 -> Rabs (v - w) <= k * uu -> Rabs v <= 32 / 10 ->
  Rabs ((if deg then l_degrees lk v else v) - deg_out deg w) <= deg_out deg ((k + 3 * Rabs v + 1 / 10) * uu).
Proof.
  intros M D V K H V3. pose proof uu_pos as U0. pose proof (Rabs_pos v). unfold deg_out. destruct deg; [|assert (0 <= uu * Rabs v) by (apply Rmult_le_pos; lra); lra].
  destruct M as (_ & _ & _ & _ & _ & _ & _ & Q & _). specialize (Q v D V). pose proof PI_RGT_0 as P0. pose proof L_vin3.pi_315 as P3. pose proof e300 as E3. set (s := / 10 ^ 300) in *. clearbody s.
  assert (PD : 0 < 180 / PI) by (apply Rmult_lt_0_compat; [lra|apply Rinv_0_lt_compat; lra]). assert (P1 : 1 <= 180 / PI) by (apply Rmult_le_reg_r with PI; [lra|]; unfold Rdiv; rewrite Rmult_assoc, Rinv_l by lra; lra).
  assert (DD : forall q, degrees q = 180 / PI * q) by (intros q; unfold degrees; field; lra). rewrite !DD in *. rewrite Rabs_mult, (Rabs_pos_eq (180 / PI)) in Q by lra.
  replace (l_degrees lk v - 180 / PI * w) with ((l_degrees lk v - 180 / PI * v) + 180 / PI * (v - w)) by ring. apply Rle_trans with (1 := Rabs_triang _ _). rewrite Rabs_mult, (Rabs_pos_eq (180 / PI)) by lra.
  set (c := 180 / PI) in *. clearbody c. assert (c * Rabs (v - w) <= c * (k * uu)) by (apply Rmult_le_compat_l; lra). assert (1 * uu <= c * uu) by (apply Rmult_le_compat_r; lra). lra.
Qed.
Lemma atan2_7 y x : Rabs (atan2 y x) <= 315 / 100.
Proof. pose proof (atan2_range y x). pose proof L_vin3.pi_315. apply Rabs_le. lra. Qed.

(** ** C93 *)
(** The computed coordinates against the exactly evaluated formula: latitude within 280 and
    longitude within 20 half-ulps of 1 rad, altitude within 420 half-ulps of the distance from
    the centre, except possibly for its sign when the point is on the ellipsoid to within
    rounding. *)
Theorem C93_ecef2geodetic : forall lk x y z ell deg, libm2_ok lk -> axes_ok ell -> flat_ok ell -> point_ok ell x y z ->
  let '(latf, lonf, hf) := fl_ecef2geodetic lk x y z ell deg in
  let '(lat, lon, h) := ecef2geodetic x y z ell deg in
  Rabs (latf - lat) <= deg_out deg (280 * uu) /\ Rabs (lonf - lon) <= deg_out deg (20 * uu) /\
  Rabs (Rabs hf - Rabs h) <= 420 * uu * vnorm (x, y, z) /\
  (10 * uu < Rabs (quadric ell x y z - 1) -> Rabs (hf - h) <= 420 * uu * vnorm (x, y, z)).
Proof.
  intros lk x y z ell deg M AX FL PT. unfold fl_ecef2geodetic, ecef2geodetic. cbv zeta.
  destruct (beta_float lk M ell x y z AX FL PT) as (_ & HL & HA & HC). destruct (beta_exact ell x y z AX PT) as (_ & HB). rewrite HB.
  pose proof (ax_a ell) as XA. pose proof (ax_b ell) as XB. set (B := gB1 (ell_a ell) (ell_b ell) x y z) in *. set (Bf := fl_beta lk (resolve_ellipsoid ell) x y z) in *.
  pose proof uu_pos as U0. pose proof uu_small as U1. pose proof L_vin3.pi_315 as P3. pose proof PI_RGT_0 as P0.
  assert (DM : forall k k', k * uu <= k' * uu -> deg_out deg (k * uu) <= deg_out deg (k' * uu)).
  { intros k k' K. unfold deg_out. destruct deg; [|exact K]. unfold degrees, Rdiv. apply Rmult_le_compat_r; [left; apply Rinv_0_lt_compat; lra|]. lra. }
  split; [|split].
  - unfold lat_scalar. destruct (Req_EM_T (cos B) 0) as [Q|_]; [exfalso; lra|]. unfold lat_of_beta. rewrite !XA, !XB.
    set (vf := l_atan lk _) in *. assert (V : Rabs vf < PI / 2) by (destruct M as (_ & _ & _ & _ & _ & Q & _); apply Q; apply rnd_double).
    assert (DV : double vf) by (destruct M as (_ & _ & _ & _ & _ & _ & _ & _ & _ & _ & Q & _); apply Q).
    apply Rle_trans with (1 := deg_err lk deg vf _ 270 M DV ltac:(lra) ltac:(lra) HL ltac:(lra)). apply DM. apply Rmult_le_compat_r; lra.
  - pose proof (atan2_7 y x) as A7. destruct PT as (Dx & Dy & _). assert (Q8 : Rabs (l_atan2 lk y x - atan2 y x) <= 8 * uu) by (destruct M as (_ & _ & _ & _ & _ & _ & Q & _); apply Q; assumption).
    assert (DV : double (l_atan2 lk y x)) by (destruct M as (_ & _ & _ & _ & _ & _ & _ & _ & _ & _ & _ & Q & _); apply Q).
    assert (V : Rabs (l_atan2 lk y x) <= 32 / 10). { replace (l_atan2 lk y x) with ((l_atan2 lk y x - atan2 y x) + atan2 y x) by ring. apply Rle_trans with (1 := Rabs_triang _ _). lra. }
    apply Rle_trans with (1 := deg_err lk deg _ _ 8 M DV ltac:(lra) ltac:(lra) Q8 V). apply DM. apply Rmult_le_compat_r; lra.
  - unfold alt_of_beta. cbv zeta. rewrite !XA, !XB. rewrite (r_vnorm x y z).
    set (hf := l_hypot (l_base lk) (fl_sub z _) _) in *. set (h := hypot (z - _) _) in *. set (r := sqrt (x ^ 2 + y ^ 2 + z ^ 2)) in *.
    assert (HN : 0 <= h) by apply hypot_nonneg.
    assert (AB : Rabs (Rabs hf - Rabs h) <= 420 * uu * r) by (apply Rle_trans with (2 := HA); apply Rabs_triang_inv2).
    split.
    + destruct (fl_inside _ _ _ _ _), (inside_dec _ _ _ _); rewrite ?Rabs_Ropp; exact AB.
    + intros HS. assert (SI : fl_inside lk (resolve_ellipsoid ell) x y z = inside_dec (resolve_ellipsoid ell) x y z).
      { unfold fl_inside, inside_dec. cbv zeta. rewrite XA, XB. destruct AX as (Ha & Hb). destruct PT as (Dx & Dy & Dz & Fx & Fy & Fz & Hr & Hp). rewrite (r_vnorm x y z) in Hr.
        pose proof (inside_er lk M (ell_a ell) (ell_b ell) x y z Ha Hb Dx Dy Dz Fx Fy Fz Hr) as (IE & I0). fold (quadric ell x y z). change (gS (ell_a ell) (ell_b ell) x y z) with (quadric ell x y z) in *. set (q := quadric ell x y z) in *. set (sf := fl_add (fl_add _ _) _) in *. change (fl_add (fl_add _ _) _) with sf. clearbody q sf.
        clear - IE HS I0 U0 U1. destruct (Rlt_dec sf 1) as [L|L], (Rlt_dec q 1) as [L'|L']; try reflexivity; exfalso; apply Rabs_le_inv in IE.
        - rewrite Rabs_pos_eq in HS by lra. assert (92 / 10 * uu * q <= 93 / 10 * uu * 1 + 93 / 10 * uu * (q - 1)) by nra. assert (93 / 10 * uu * (q - 1) <= 1 / 100 * (q - 1)) by (apply Rmult_le_compat_r; lra). lra.
        - rewrite Rabs_left in HS by lra. assert (92 / 10 * uu * q <= 92 / 10 * uu * 1) by (apply Rmult_le_compat_l; lra). lra. }
      rewrite SI. destruct (inside_dec _ _ _ _); [|exact HA]. replace (- hf - - h) with (- (hf - h)) by ring. now rewrite Rabs_Ropp.
Qed.

Lemma axes_rho ell : axes_ok ell -> 8 / 10 * ell_a ell <= rho_min ell /\ ell_a ell ^ 2 <= 3 / 2 * ell_b ell ^ 2.
Proof.
  intros ((H1 & _) & H2 & H3). unfold rho_min. set (a := ell_a ell) in *. set (b := ell_b ell) in *. clearbody a b. split; [|nra].
  apply Rmult_le_reg_r with a; [lra|]. unfold Rdiv. rewrite (Rmult_assoc (b ^ 2)), Rinv_l, Rmult_1_r by lra. nra.
Qed.
Lemma rad_lin deg v w k : Rabs (v - w) <= deg_out deg k -> Rabs (as_rad deg v - as_rad deg w) <= k.
Proof.
  unfold deg_out, as_rad. destruct deg; [|tauto]. unfold degrees. intros H. pose proof PI_RGT_0. replace (v * PI / 180 - w * PI / 180) with ((PI / 180) * (v - w)) by field. rewrite Rabs_mult, (Rabs_pos_eq (PI / 180)) by lra.
  apply Rle_trans with (PI / 180 * (k * 180 / PI)); [apply Rmult_le_compat_l; [lra|]; replace (k * 180 / PI) with (k * (180 / PI)) in * by (field; lra); lra|]. right. field. lra.
Qed.
Lemma dist0 p : vdist3 p p = 0.
Proof. destruct p as [[x y] z]. unfold vdist3, vnorm, vsub, vdot. replace (_ + _) with 0 by ring. apply sqrt_0. Qed.

(** Against the true coordinates: the error of the closed formula (C73) comes on top. *)
Theorem C93_true_coordinates : forall lk lat lon h x y z ell deg, libm2_ok lk -> ell_ok ell -> axes_ok ell -> flat_ok ell -> point_ok ell x y z ->
  geodetic2ecef lat lon h ell deg = (x, y, z) -> - quarter deg < lat < quarter deg -> - half deg < lon <= half deg -> - (ell_b ell / 8) <= h ->
  let '(latf, lonf, hf) := fl_ecef2geodetic lk x y z ell deg in
  let err := closed_form_error ell h in
  Rabs (as_rad deg latf - as_rad deg lat) <= 280 * uu + 2 * err / ell_b ell /\ Rabs (as_rad deg lonf - as_rad deg lon) <= 20 * uu /\
  Rabs (hf - h) <= 470 * uu * vnorm (x, y, z) + 2 * err.
Proof.
  intros lk lat lon h x y z ell deg M Hok AX FL PT G L1 L2 H. pose proof (C93_ecef2geodetic lk x y z ell deg M AX FL PT) as A. destruct (axes_rho ell AX) as (RM & R2).
  pose proof (C73_roundtrip_accuracy ell lat lon h deg) as B. rewrite G in B. destruct AX as ((Ha & _) & Hb & Hb'). assert (AD : accuracy_domain ell deg lat lon h) by (unfold accuracy_domain; split; [exact Hok|split; [nra|split; [exact L1|split; [exact L2|exact H]]]]). specialize (B AD). unfold recovers in B.
  destruct (fl_ecef2geodetic lk x y z ell deg) as [[latf lonf] hf]. destruct (ecef2geodetic x y z ell deg) as [[lat' lon'] h']. destruct A as (A1 & A2 & A3 & A4). destruct B as (B1 & _ & B2 & B3 & _). cbv zeta. set (err := closed_form_error ell h) in *. clearbody err.
  apply rad_lin in A1. apply rad_lin in A2. subst lon'. split; [|split; [exact A2|]].
  - replace (as_rad deg latf - as_rad deg lat) with ((as_rad deg latf - as_rad deg lat') + (as_rad deg lat' - as_rad deg lat)) by ring. apply Rle_trans with (1 := Rabs_triang _ _). lra.
  - pose proof uu_pos as U0. destruct PT as (_ & _ & _ & _ & _ & _ & (HR & _) & Hp). set (r := vnorm (x, y, z)) in *. set (a := ell_a ell) in *. set (b := ell_b ell) in *.
    assert (UR : uu * (85 / 100 * a) <= uu * r) by (apply Rmult_le_compat_l; lra). assert (UA : 0 <= uu * a) by (apply Rmult_le_pos; lra).
    destruct (Rlt_le_dec (10 * uu) (Rabs (quadric ell x y z - 1))) as [S|S].
    + specialize (A4 S). replace (hf - h) with ((hf - h') + (h' - h)) by ring. apply Rle_trans with (1 := Rabs_triang _ _). lra.
    + pose proof Hp as XY.
      destruct (C94_every_position ell deg x y z Hok R2 XY) as (ls & os & hs & S1 & S2 & S3 & _ & S4). fold (quadric ell x y z) in S4. fold a in S4.
      assert (HS : Rabs hs <= 20 * (uu * a)). { apply Rle_trans with (1 := S4). replace (20 * (uu * a)) with (2 * a * (10 * uu)) by ring. apply Rmult_le_compat_l; lra. }
      assert (E : h = hs). { pose proof uu_small as U1. assert (uu * a <= / 1000000000000000 * a) by (apply Rmult_le_compat_r; lra). apply abs_bounds in HS. pose proof (C94_height ell deg lat lon h ls os hs Hok ltac:(lra) ltac:(lra)) as D. rewrite G, S3, dist0 in D. apply Rminus_diag_uniq. destruct (Req_dec (h - hs) 0) as [Z|Z]; [exact Z|]. apply Rabs_pos_lt in Z. lra. }
      rewrite <- E in HS. apply Rle_trans with (1 := Rabs_triang _ _). rewrite Rabs_Ropp. apply abs_bounds in A3. replace h' with (h + (h' - h)) in A3 by ring. pose proof (Rabs_triang h (h' - h)). lra.
Qed.
Lemma flat_earth : flat_ok None.
Proof. right. cbn [ell_a ell_b]. lra. Qed.
Lemma norm_earth lat lon h deg : vnorm (geodetic2ecef lat lon h None deg) <= 6378137 + Rabs h.
Proof.
  assert (Hok : ell_ok None) by exact I. rewrite (L_ecef.g2e_normal None Hok). apply Rle_trans with (1 := L_aer.vnorm_triangle _ _).
  pose proof (L_ecef.g2e_surface None Hok lat lon deg) as S. pose proof (L_ecef.unit_normal_unit (as_rad deg lat) (as_rad deg lon)) as U. destruct (geodetic2ecef lat lon 0 None deg) as [[x y] z]. destruct (unit_normal _ _) as [[u v] w]. apply Rplus_le_compat.
  - unfold on_ellipsoid in S. cbn [ell_a ell_b] in S. unfold vnorm, vdot. rewrite <- (sqrt_pow2 6378137) by lra. apply sqrt_le_1_alt. pose proof (pow2_ge_0 z) as Z.
    assert (I : / 6378137 ^ 2 <= / (635675231424518 / 100000000) ^ 2) by lra. apply Rmult_le_compat_l with (r := z ^ 2) in I; [|exact Z]. unfold Rdiv in S. clear - S I. lra.
  - unfold vnorm, vscale, vdot in *. replace (h * u * (h * u) + h * v * (h * v) + h * w * (h * w)) with (h ^ 2 * (u * u + v * v + w * w)) by ring. rewrite U, Rmult_1_r, <- pow2_abs, sqrt_pow2 by apply Rabs_pos. lra.
Qed.
(** Near the Earth's surface: 3.2e-14 rad, 2.3e-15 rad and a third of a micrometre. *)
Theorem C93_earth : forall lk lat lon h x y z deg, libm2_ok lk -> point_ok None x y z ->
  geodetic2ecef lat lon h None deg = (x, y, z) -> - quarter deg < lat < quarter deg -> - half deg < lon <= half deg -> -1000 <= h <= 10000 ->
  let '(latf, lonf, hf) := fl_ecef2geodetic lk x y z None deg in
  Rabs (as_rad deg latf - as_rad deg lat) <= 32 / 10 ^ 15 /\ Rabs (as_rad deg lonf - as_rad deg lon) <= 23 / 10 ^ 16 /\
  Rabs (hf - h) <= 34 / 10 ^ 8.
Proof.
  intros lk lat lon h x y z deg M PT G L1 L2 H. assert (Hok : ell_ok None) by exact I.
  pose proof (C93_true_coordinates lk lat lon h x y z None deg M Hok wgs_axes flat_earth PT G L1 L2) as C. cbn [ell_b] in C. specialize (C ltac:(lra)).
  assert (N : vnorm (x, y, z) <= 6388137). { rewrite <- G. apply Rle_trans with (1 := norm_earth _ _ _ _). assert (Rabs h <= 10000) by (apply Rabs_le; lra). lra. }
  assert (ER : 2 * closed_form_error None h <= 2 / 10 ^ 9).
  { clear - H. unfold closed_form_error. cbn [ell_a ell_b]. cbv zeta. set (k := (6378137 / _) ^ 2 * _). assert (K : 0 <= k <= 5 / 100000) by (unfold k; lra). clearbody k. destruct (Rle_dec 0 h) as [P|P].
    - assert (Q : Rmin 1 ((h / (635675231424518 / 100000000)) ^ 3) <= 4 / 10 ^ 9).
      { apply Rle_trans with (1 := Rmin_r _ _). apply Rle_trans with ((10000 / (635675231424518 / 100000000)) ^ 3); [|lra]. apply pow_incr. lra. }
      assert (Q0 : 0 <= Rmin 1 ((h / (635675231424518 / 100000000)) ^ 3)) by (apply Rmin_glb; [lra|]; apply pow_le; lra). set (m := Rmin 1 _) in *. clearbody m. assert (0 <= h / 4 * m <= 2500 * (4 / 10 ^ 9)) by (split; [apply Rmult_le_pos; lra|apply Rmult_le_compat; lra]). assert (k * (h / 4 * m) <= 5 / 100000 * (2500 * (4 / 10 ^ 9))) by (apply Rmult_le_compat; lra). lra.
    - assert (Q : 0 <= h ^ 4 <= 1000 ^ 4). { replace (h ^ 4) with ((- h) ^ 4) by ring. split; [apply pow_le; lra|apply pow_incr; lra]. } set (m := h ^ 4) in *. clearbody m. assert (0 <= 2 * (m / (635675231424518 / 100000000) ^ 3) <= 1 / 10 ^ 7) by lra. set (j := 2 * (m / _)) in *. clearbody j. assert (k * j <= 5 / 100000 * (1 / 10 ^ 7)) by (apply Rmult_le_compat; lra). lra. }
  destruct (fl_ecef2geodetic lk x y z None deg) as [[latf lonf] hf]. cbv zeta in C. destruct C as (C1 & C2 & C3). set (err := closed_form_error None h) in *. clearbody err.
  assert (U : uu <= 11103 / 10 ^ 20) by (unfold uu; lra). pose proof uu_pos as U0. split; [|split].
  - lra.
  - lra.
  - apply Rle_trans with (1 := C3). assert (uu * vnorm (x, y, z) <= 11103 / 10 ^ 20 * 6388137) by (apply Rmult_le_compat; try lra; apply sqrt_pos). lra.
Qed.
Lemma hypot_far x1 y1 z1 x2 y2 z2 : hypot x2 y2 - vdist3 (x1, y1, z1) (x2, y2, z2) <= hypot x1 y1.
Proof.
  pose proof (L_aer.vnorm_triangle (x1, y1, 0) (x2 - x1, y2 - y1, 0)) as T. unfold vadd in T. replace (x1 + (x2 - x1)) with x2 in T by ring. replace (y1 + (y2 - y1)) with y2 in T by ring. replace (0 + 0) with 0 in T by ring.
  assert (H : forall x y, vnorm (x, y, 0) = hypot x y) by (intros; unfold vnorm, vdot, hypot; f_equal; ring). rewrite !H in T. assert (hypot (x2 - x1) (y2 - y1) <= vdist3 (x1, y1, z1) (x2, y2, z2)); [|lra].
  unfold hypot, vdist3, vnorm, vsub, vdot. apply sqrt_le_1_alt. pose proof (Rle_0_sqr (z1 - z2)) as Q. unfold Rsqr in Q. lra.
Qed.
Lemma as_rad_turn deg lon k : as_rad deg (lon + IZR k * full deg) = as_rad deg lon + IZR k * (2 * PI).
Proof. unfold as_rad, full. destruct deg; field. Qed.
Lemma near_dist eps p q : within eps p q -> 0 < eps -> vdist3 p q <= 17321 / 10000 * eps.
Proof.
  intros W H. apply L_aer.within_dist in W; [|exact H]. assert (S3 : 0 <= sqrt 3 <= 17321 / 10000) by (split; [apply sqrt_pos|]; rewrite <- (sqrt_pow2 (17321 / 10000)) by lra; apply sqrt_le_1_alt; lra). assert (sqrt 3 * eps <= 17321 / 10000 * eps) by (apply Rmult_le_compat_r; lra). lra.
Qed.
(** A computed position within d of a place near the Earth's surface. *)
Theorem C93_nearby : forall lk lat lon h x y z d deg, libm2_ok lk -> point_ok None x y z -> Rabs lat <= quarter deg -> -1000 + d <= h <= 10000 - d -> d <= 2 ->
  vdist3 (x, y, z) (geodetic2ecef lat lon h None deg) <= d ->
  let '(latf, lonf, hf) := fl_ecef2geodetic lk x y z None deg in
  Rabs (as_rad deg latf - as_rad deg lat) <= 32 / 10 ^ 15 + d / 6318000 /\
  (2000 * d <= hypot x y -> exists k : Z, Rabs (as_rad deg lonf - as_rad deg lon - IZR k * (2 * PI)) <= 23 / 10 ^ 16 + 1004 / 1000 * d / hypot x y) /\
  Rabs (hf - h) <= 34 / 10 ^ 8 + d.
Proof.
  intros lk lat lon h x y z d' deg M PT L1 H DS D. assert (Hok : ell_ok None) by exact I. pose proof uu_pos as U0.
  assert (D0' : 0 <= d') by (apply Rle_trans with (2 := D); apply sqrt_pos).
  destruct PT as (Dx & Dy & Dz & Fx & Fy & Fz & (HR & HR') & Hp). assert (PT : point_ok None x y z) by (unfold point_ok; tauto). cbn [ell_a] in HR.
  pose proof Hp as XY.
  destruct (C94_every_position None deg x y z Hok ltac:(cbn [ell_a ell_b]; lra) XY) as (ls & os & hs & S1 & S2 & S3 & S4 & S5). cbn [ell_a ell_b] in S4, S5.
  assert (RH : 6335000 <= rho_min None) by (unfold rho_min, ell_a, ell_b; lra).
  assert (HS : - 4000000 <= hs).
  { set (q := x ^ 2 / _ + _ + _) in *. destruct (Rle_lt_dec 1 q) as [Q|Q]; [specialize (S4 Q); lra|]. assert (QL : 7225 / 10000 <= q).
    { unfold q. clear - HR. unfold vnorm, vdot in HR. assert (N : (85 / 100 * 6378137) ^ 2 <= x * x + y * y + z * z). { rewrite <- (pow2_sqrt (x * x + y * y + z * z)) by nra. apply pow_incr. lra. } pose proof (pow2_ge_0 z) as Z. assert (I : / 6378137 ^ 2 <= / (635675231424518 / 100000000) ^ 2) by lra. apply Rmult_le_compat_l with (r := z ^ 2) in I; [|exact Z]. unfold Rdiv. lra. }
    rewrite (Rabs_left (q - 1)) in S5 by lra. apply abs_bounds in S5. lra. }
  pose proof (C94_height None deg ls os hs lat lon h Hok ltac:(lra) ltac:(lra)) as HH. rewrite S3 in HH. assert (HB : Rabs (hs - h) <= d') by lra. clear HH. assert (HC : -1000 <= hs <= 10000) by (apply abs_bounds in HB; lra).
  pose proof (C93_earth lk ls os hs x y z deg M PT S3 S1 S2 HC) as E. assert (LS : Rabs ls <= quarter deg) by (apply Rabs_le; lra).
  pose proof (C94_earth deg ls os hs lat lon h ltac:(lra) ltac:(lra) LS L1) as (_ & EL). rewrite S3 in EL. specialize (EL ltac:(lra)).
  destruct (fl_ecef2geodetic lk x y z None deg) as [[latf lonf] hf]. destruct E as (E1 & E2 & E3). split; [|split].
  - replace (as_rad deg latf - as_rad deg lat) with ((as_rad deg latf - as_rad deg ls) + (as_rad deg ls - as_rad deg lat)) by ring. apply Rle_trans with (1 := Rabs_triang _ _). lra.
  - intros PP. assert (P0p : 0 < hypot x y) by (apply sqrt_lt_R0; pose proof (pow2_ge_0 x); pose proof (pow2_ge_0 y); destruct XY as [X|X]; apply pow_nonzero with (n := 2%nat) in X; lra). destruct (L_lox.wrapdist_spec (as_rad deg os - as_rad deg lon)) as ((_ & K) & (k & KE) & _). rewrite KE in K. exists k. replace (as_rad deg os - as_rad deg lon - IZR k * (2 * PI)) with (as_rad deg os - as_rad deg (lon + IZR k * full deg)) in K by (rewrite as_rad_turn; ring).
    assert (GP : geodetic2ecef lat (lon + IZR k * full deg) h None deg = geodetic2ecef lat lon h None deg).
    { rewrite !(L_ecef.g2e_unfold None Hok). cbv zeta. rewrite as_rad_turn. rewrite cos_period_Z, sin_period_Z. reflexivity. }
    pose proof (C94_angles None deg ls os hs lat (lon + IZR k * full deg) h Hok ltac:(lra) ltac:(lra) LS L1) as A. rewrite S3, GP in A. destruct (geodetic2ecef lat lon h None deg) as [[x' y'] z']. cbv zeta in A. destruct A as (_ & A). pose proof (hypot_far x' y' z' x y z) as HF. rewrite dist_sym in D. set (d := vdist3 (x', y', z') (x, y, z)) in *. rewrite dist_sym in A. fold d in A. assert (D0 : 0 <= d) by apply sqrt_pos.
    set (p := hypot x y) in *. assert (P9 : 999 / 1000 * p <= hypot x' y') by lra. specialize (A (999 / 1000 * p) ltac:(lra) P9 ltac:(lra) K). rewrite as_rad_turn in A.
    assert (A' : 1001 / 1000 * (d / (999 / 1000 * p)) <= 1004 / 1000 * d' / p). { apply Rmult_le_reg_r with p; [lra|]. replace (1001 / 1000 * (d / (999 / 1000 * p)) * p) with (1001 / 999 * d) by (field; lra). replace (1004 / 1000 * d' / p * p) with (1004 / 1000 * d') by (field; lra). lra. }
    replace (as_rad deg lonf - as_rad deg lon - IZR k * (2 * PI)) with ((as_rad deg lonf - as_rad deg os) + (as_rad deg os - (as_rad deg lon + IZR k * (2 * PI)))) by ring. apply Rle_trans with (1 := Rabs_triang _ _). lra.
  - replace (hf - h) with ((hf - hs) + (hs - h)) by ring. apply Rle_trans with (1 := Rabs_triang _ _). lra.
Qed.
(** There and back in binary64: latitude to 5e-14 rad, height to half a micrometre, longitude
    (up to whole turns) to 1e-7 m at the point's distance from the axis. *)
Theorem C93_round_trip : forall lk lat lon h deg, libm2_ok lk -> site_ok lat lon h deg -> -999 <= h <= 9999 ->
  let '(x, y, z) := fl_geodetic2ecef (l_base lk) lat lon h None deg in
  point_ok None x y z ->
  let '(latf, lonf, hf) := fl_ecef2geodetic lk x y z None deg in
  Rabs (as_rad deg latf - as_rad deg lat) <= 5 / 10 ^ 14 /\
  (1 / 1000 <= hypot x y -> exists k : Z, Rabs (as_rad deg lonf - as_rad deg lon - IZR k * (2 * PI)) <= 23 / 10 ^ 16 + / 10 ^ 7 / hypot x y) /\
  Rabs (hf - h) <= 5 / 10 ^ 7.
Proof.
  intros lk lat lon h deg M ST H. pose proof (C92_geodetic2ecef (l_base lk) lat lon h None deg (proj1 M) wgs_axes ST) as W. destruct ST as (_ & _ & _ & L1 & L2).
  destruct (fl_geodetic2ecef (l_base lk) lat lon h None deg) as [[x y] z]. intros PT. pose proof uu_pos as U0.
  assert (EP : 0 < 65 * uu * reach None h <= 5123 / 10 ^ 11).
  { unfold reach. cbn [ell_a]. assert (0 <= Rabs h <= 9999) by (split; [apply Rabs_pos|apply Rabs_le; lra]). assert (U : uu <= 11103 / 10 ^ 20) by (unfold uu; lra). set (t := 10 / 9 * 6378137 + Rabs h) in *. assert (0 < t <= 70969 * 100) by (unfold t; lra). clearbody t. split; [apply Rmult_lt_0_compat; lra|]. assert (uu * t <= 11103 / 10 ^ 20 * (70969 * 100)) by (apply Rmult_le_compat; lra). lra. }
  pose proof (near_dist _ _ _ W ltac:(lra)) as D. pose proof (C93_nearby lk lat lon h x y z (89 / 10 ^ 9) deg M PT L1 ltac:(lra) ltac:(lra) ltac:(lra)) as N.
  destruct (fl_ecef2geodetic lk x y z None deg) as [[latf lonf] hf]. destruct N as (N1 & N2 & N3). split; [lra|]. split; [|lra]. intros PP. destruct (N2 ltac:(lra)) as (k & N2'). clear N2. rename N2' into N2. exists k. apply Rle_trans with (1 := N2). apply Rplus_le_compat_l.
  assert (0 <= / hypot x y). { pose proof (hypot_nonneg x y) as [Q|Q]; [left; now apply Rinv_0_lt_compat|rewrite <- Q, Rinv_0; lra]. }
  unfold Rdiv. apply Rmult_le_compat_r; lra.
Qed.
Lemma rnd_rel v : Rabs (rnd v - v) <= uu * Rabs v + / 10 ^ 300.
Proof.
  pose proof uu_pos as U0. pose proof (Rabs_pos v) as H0. pose proof (p10 300) as H1. pose proof (tny_300 _ (Rle_refl _)) as T. pose proof uu_small as U1. pose proof tny_pos as T0. set (w := / 10 ^ 300) in *. clearbody w. assert (0 <= uu * Rabs v) by (apply Rmult_le_pos; lra).
  destruct (Rle_lt_dec tny (Rabs v)) as [L|L].
  - pose proof (rnd_err v (Rabs v) (Rle_refl _) L) as E. lra.
  - pose proof (rnd_err v tny ltac:(lra) (Rle_refl _)) as E. assert (uu * tny <= 1 * tny) by (apply Rmult_le_compat_r; lra). lra.
Qed.
(** A library that rounds meets the assumptions (its arctangent slightly low, to stay below a
    quarter turn), and so does a point of the Atlantic. *)
Definition libm2_rounding : libm2 :=
  {| l_base := libm_correct; l_atan := fun x => rnd ((1 - 3 / 2 * uu) * atan x); l_atan2 := fun y x => rnd (atan2 y x);
     l_tan := fun x => rnd (tan x); l_degrees := fun x => rnd (degrees x) |}.
Lemma libm2_rounding_ok : libm2_ok libm2_rounding.
Proof.
  pose proof uu_pos as U0. pose proof uu_small as U1. pose proof e300 as E3. pose proof L_vin3.pi_315 as P3. pose proof PI2_1 as P1.
  assert (REL : forall k v, 1 <= k -> Rabs (rnd v - v) <= k * uu * Rabs v + / 10 ^ 300) by (intros k v K; pose proof (rnd_rel v); pose proof (Rabs_pos v); assert (1 * uu * Rabs v <= k * uu * Rabs v) by (apply Rmult_le_compat_r; [lra|]; apply Rmult_le_compat_r; lra); lra).
  assert (AT : forall x, Rabs (rnd ((1 - 3 / 2 * uu) * atan x) - (1 - 3 / 2 * uu) * atan x) <= uu * ((1 - 3 / 2 * uu) * Rabs (atan x)) + uu / 100).
  { intros x. pose proof (rnd_rel ((1 - 3 / 2 * uu) * atan x)) as Q. rewrite Rabs_mult, (Rabs_pos_eq (1 - 3 / 2 * uu)) in Q by lra. lra. }
  assert (AB : forall x, Rabs (atan x) < PI / 2) by (intros x; pose proof (atan_bound x); apply Rabs_def1; lra).
  split; [exact (proj1 C92_nonvacuous)|]. cbn [libm2_rounding l_base libm_correct l_sin l_cos l_tan l_atan l_atan2 l_degrees l_sq l_hypot].
  split; [intros; apply REL; lra|]. split; [intros; apply REL; lra|]. split; [intros; apply REL; lra|]. split; [|split; [|split; [|split; [intros; apply REL; lra|]]]].
  - intros x _ _. specialize (AT x). specialize (AB x). pose proof (Rabs_pos (atan x)) as A0. replace (rnd ((1 - 3 / 2 * uu) * atan x) - atan x) with ((rnd ((1 - 3 / 2 * uu) * atan x) - (1 - 3 / 2 * uu) * atan x) - 3 / 2 * uu * atan x) by ring.
    apply Rle_trans with (1 := Rabs_triang _ _). rewrite Rabs_Ropp, (Rabs_mult (3 / 2 * uu)), (Rabs_pos_eq (3 / 2 * uu)) by lra. set (v := Rabs (atan x)) in *. clearbody v. clear - AT AB A0 U0 U1 P3. assert (uu * v <= uu * (1575 / 1000)) by (apply Rmult_le_compat_l; lra). assert (uu * ((1 - 3 / 2 * uu) * v) <= uu * (1 * v)) by (apply Rmult_le_compat_l; [lra|]; apply Rmult_le_compat_r; lra). lra.
  - intros x _. specialize (AT x). specialize (AB x). pose proof (Rabs_pos (atan x)) as A0. pose proof (Rabs_triang_inv (rnd ((1 - 3 / 2 * uu) * atan x)) ((1 - 3 / 2 * uu) * atan x)) as T. rewrite (Rabs_mult (1 - 3 / 2 * uu)), (Rabs_pos_eq (1 - 3 / 2 * uu)) in T by lra.
    set (v := Rabs (atan x)) in *. set (w := Rabs (rnd _)) in *. clearbody v w. set (p := PI / 2) in *. clearbody p. assert (W : w <= v - 1 / 2 * uu * v + uu / 100) by (assert (0 <= uu * uu * v) by (repeat apply Rmult_le_pos; lra); lra). clear - W AB A0 U0 U1 P1 AT T.
    destruct (Rle_lt_dec v (1 / 2)) as [L|L].
    + assert (0 <= uu * v) by (apply Rmult_le_pos; lra). lra.
    + assert (uu * (1 / 2) <= uu * v) by (apply Rmult_le_compat_l; lra). lra.
  - intros x y _ _. pose proof (rnd_rel (atan2 y x)) as Q. pose proof (atan2_7 y x) as A7. assert (uu * Rabs (atan2 y x) <= uu * (315 / 100)) by (apply Rmult_le_compat_l; lra). lra.
  - split; [replace (0 ^ 2) with 0 by ring; apply rnd0|]. do 4 (split; [intros; apply rnd_double|]). intros x y _ _ _. pose proof (REL 4 (hypot x y) ltac:(lra)) as Q. rewrite (Rabs_pos_eq (hypot x y)) in Q by apply hypot_nonneg. exact Q.
Qed.
Example C93_nonvacuous : libm2_ok libm2_rounding /\ axes_ok None /\ flat_ok None /\ point_ok None 4000000 (-3000000) 4000000 /\
  (exists lat lon h, geodetic2ecef lat lon h None true = (4000000, -3000000, 4000000) /\ - quarter true < lat < quarter true /\ - half true < lon <= half true /\ 0 <= h).
Proof.
  assert (P80 : / 10 ^ 80 <= 1) by (rewrite <- Rinv_1; apply Rinv_le_contravar; [lra|apply pow_R1_Rle; lra]).
  split; [exact libm2_rounding_ok|]. split; [exact wgs_axes|]. split; [exact flat_earth|]. split.
  - unfold point_ok. split; [apply (double_int 4000000); reflexivity|]. split; [apply (double_int (-3000000)); reflexivity|]. split; [apply (double_int 4000000); reflexivity|].
    split; [right; rewrite Rabs_pos_eq by lra; set (w := / 10 ^ 80) in *; lra|]. split; [right; rewrite Rabs_left by lra; set (w := / 10 ^ 80) in *; lra|]. split; [right; rewrite Rabs_pos_eq by lra; set (w := / 10 ^ 80) in *; lra|].
    unfold vnorm, vdot, hypot. cbn [ell_a]. assert (S : 6400000 <= sqrt (4000000 * 4000000 + -3000000 * -3000000 + 4000000 * 4000000) <= 6410000) by (split; [rewrite <- (sqrt_pow2 6400000) by lra|rewrite <- (sqrt_pow2 6410000) by lra]; apply sqrt_le_1_alt; lra).
    set (r := sqrt (_ + _ + _)) in *. clearbody r. split; [lra|left; lra].
  - destruct (C94_every_position None true 4000000 (-3000000) 4000000 I ltac:(cbn [ell_a ell_b]; lra) ltac:(left; lra)) as (lat & lon & h & H1 & H2 & H3 & H4 & _). exists lat, lon, h. split; [exact H3|]. split; [exact H1|]. split; [exact H2|]. apply H4. cbn [ell_a ell_b]. lra.
Qed.
Example C93_round_trip_nonvacuous : site_ok 45 45 300 true /\
  let '(x, y, z) := fl_geodetic2ecef (l_base libm2_rounding) 45 45 300 None true in point_ok None x y z /\ 1 / 1000 <= hypot x y.
Proof.
  assert (ST : site_ok 45 45 300 true) by (unfold site_ok, quarter, full; rewrite Rabs_pos_eq by lra; refine (conj _ (conj _ (conj _ (conj _ _)))); [apply (double_int 45); reflexivity|apply (double_int 45); reflexivity|apply (double_int 300); reflexivity|lra|lra]).
  split; [exact ST|]. pose proof (C92_geodetic2ecef libm_correct 45 45 300 None true (proj1 C92_nonvacuous) wgs_axes ST) as W. pose proof (L_ecef.g2e_unfold None I 45 45 300 true) as G. cbv zeta in G.
  assert (DB : let '(x, y, z) := fl_geodetic2ecef libm_correct 45 45 300 None true in double x /\ double y /\ double z) by (unfold fl_geodetic2ecef; cbv zeta; repeat split; apply rnd_double).
  cbn [l_base libm2_rounding]. destruct (fl_geodetic2ecef libm_correct 45 45 300 None true) as [[x y] z]. destruct DB as (D1 & D2 & D3). rewrite G in W. clear G.
  assert (E : 65 * uu * reach None 300 <= 1). { unfold reach. cbn [ell_a]. rewrite Rabs_pos_eq by lra. unfold uu. lra. } set (e := 65 * uu * reach None 300) in *. clearbody e.
  replace (as_rad true 45) with (PI / 4) in W by (unfold as_rad; field). rewrite cos_PI4, sin_PI4 in W. cbn [ell_a ell_b] in W. set (s := 1 / sqrt 2) in *.
  assert (S : 7071 / 10000 <= s <= 7072 / 10000). { assert (Q : 1414 / 1000 <= sqrt 2) by (rewrite <- (sqrt_pow2 (1414 / 1000)) by lra; apply sqrt_le_1_alt; lra). assert (Q2 : sqrt 2 * sqrt 2 = 2) by (apply sqrt_sqrt; lra). assert (SS : s * sqrt 2 = 1) by (unfold s; field; lra). assert (s * s = 1 / 2) by (replace (s * s) with ((s * sqrt 2) * (s * sqrt 2) / (sqrt 2 * sqrt 2)) by (field; lra); rewrite SS, Q2; lra). assert (0 < s) by (unfold s; apply Rmult_lt_0_compat; [lra|apply Rinv_0_lt_compat; lra]). clearbody s. clear - H H0. split; nra. }
  set (w := hypot _ _) in *. assert (Hw : 6350000 <= w <= 6378137).
  { assert (Q : s * s = 1 / 2) by (unfold s; replace (1 / sqrt 2 * (1 / sqrt 2)) with (1 / (sqrt 2 * sqrt 2)) by (field; apply Rgt_not_eq, sqrt_lt_R0; lra); rewrite sqrt_sqrt; lra). unfold w, hypot. split; [rewrite <- (sqrt_pow2 6350000) by lra|apply Rle_trans with (sqrt (6378137 ^ 2)); [|rewrite sqrt_pow2; lra]]; apply sqrt_le_1_alt; clearbody s; replace ((6378137 * s) ^ 2) with (6378137 ^ 2 * (s * s)) by ring; replace ((635675231424518 / 100000000 * s) ^ 2) with ((635675231424518 / 100000000) ^ 2 * (s * s)) by ring; rewrite Q; lra. }
  clearbody w s. set (A := 6378137 ^ 2 / w) in *. set (B := (635675231424518 / 100000000) ^ 2 / w) in *.
  assert (HA : 6378000 <= A <= 6410000) by (unfold A; split; apply Rmult_le_reg_r with w; try lra; unfold Rdiv; rewrite Rmult_assoc, Rinv_l by lra; lra).
  assert (HB : 6330000 <= B <= 6370000) by (unfold B; split; apply Rmult_le_reg_r with w; try lra; unfold Rdiv; rewrite Rmult_assoc, Rinv_l by lra; lra). clearbody A B.
  assert (X : 4500000 <= (A + 300) * s <= 4600000) by nra. set (p := (A + 300) * s) in *. clearbody p. assert (X2 : 3100000 <= p * s <= 3300000) by nra. assert (Z : 4400000 <= (B + 300) * s <= 4600000) by nra. set (q := p * s) in *. set (t := (B + 300) * s) in *. clearbody q t.
  destruct W as (W1 & W2 & W3). apply Rabs_def2 in W1, W2, W3. assert (P80 : / 10 ^ 80 <= 1) by (rewrite <- Rinv_1; apply Rinv_le_contravar; [lra|apply pow_R1_Rle; lra]). set (i := / 10 ^ 80) in *. assert (FF : forall v, 1 <= v -> far v) by (intros v V; right; fold i; rewrite Rabs_pos_eq; lra). clearbody i.
  assert (HH : 1 / 1000 <= hypot x y) by (assert (BX : 3000000 <= x) by lra; clear - BX; apply Rle_trans with x; [lra|]; unfold hypot; apply Rle_trans with (sqrt (x ^ 2)); [rewrite sqrt_pow2; lra|apply sqrt_le_1_alt; pose proof (pow2_ge_0 y); lra]). split; [|exact HH]. clear HH.
    split; [exact D1|]. split; [exact D2|]. split; [exact D3|]. split; [apply FF; lra|]. split; [apply FF; lra|]. split; [apply FF; lra|]. cbn [ell_a].
  assert (BX : 3000000 <= x <= 3400000) by lra. assert (BY : 3000000 <= y <= 3400000) by lra. assert (BZ : 4300000 <= z <= 4700000) by lra. clear - BX BY BZ.
  assert (N : 6000000 <= vnorm (x, y, z) <= 7000000) by (unfold vnorm, vdot; split; [rewrite <- (sqrt_pow2 6000000) by lra|rewrite <- (sqrt_pow2 7000000) by lra]; apply sqrt_le_1_alt; nra).
  assert (H : 4000000 <= hypot x y) by (unfold hypot; rewrite <- (sqrt_pow2 4000000) by lra; apply sqrt_le_1_alt; nra). set (n := vnorm _) in *. clearbody n. split; [|left; lra]. lra.
Qed.
