(** Property C99, continued: eci2geodetic in binary64, and there and back between geodetic and inertial coordinates. *)
From Coq Require Import Reals ZArith Lra Lia Psatz.
From Flocq Require Import Core.
From Verif Require Import PyMath L_PyMath M_ellipsoid M_time M_ecef M_frames M_earth M_eci M_float M_floatenu M_floatgeo M_floattime M_floatsid M_floateci M_floateci2 Spec Spec_time Spec_float P_float L_float P_roundtime P_roundsid P_roundsid2 P_roundgeo P_roundpole P_roundeci P_roundeci2.
From Verif Require L_eci L_frames L_aer P_rounding.
Open Scope R_scope.

(** [q] gives the coordinates of a place to [D] metres: latitude and longitude (up to whole turns, at distance p from the polar axis) and height. *)
Definition locates_to (D : R) (deg : bool) (lat lon h p : R) (q : vec3) : Prop :=
  let '(latf, lonf, hf) := q in
  Rabs (as_rad deg latf - as_rad deg lat) <= 32 / 10 ^ 15 + D / 6318000 /\
  (0 < p -> 2000 * D <= p -> exists k : Z, Rabs (as_rad deg lonf - as_rad deg lon - IZR k * (2 * PI)) <= 23 / 10 ^ 16 + 1004 / 1000 * D / p) /\
  Rabs (hf - h) <= 34 / 10 ^ 8 + D.

Lemma plain_sum_double : forall a b c, double (fl_add (fl_add (fl_add 0 a) b) c). Proof. intros. apply rnd_double. Qed.
Lemma compensated_sum_double : forall a b c, double (compensated_sum a b c).
Proof. intros. unfold compensated_sum. destruct (cs_add _ _). apply rnd_double. Qed.
Lemma fl_matvec_double sum A v : (forall a b c, double (sum a b c)) -> forall i, double (v_at (fl_matvec3 sum A v) i).
Proof. intros S i. rewrite fmv_at. apply S. Qed.
Lemma sum_norm x y z : Rabs x + Rabs y + Rabs z <= 1.7321 * vnorm (x, y, z).
Proof.
  unfold vnorm, vdot. pose proof (Rabs_pos x) as X. pose proof (Rabs_pos y) as Y. pose proof (Rabs_pos z) as Z. rewrite <- (Rabs_pos_eq (Rabs x + Rabs y + Rabs z)) by lra. rewrite <- sqrt_Rsqr_abs. rewrite <- (sqrt_pow2 1.7321) by lra. rewrite <- sqrt_mult_alt by lra. apply sqrt_le_1_alt. unfold Rsqr.
  assert (SX : x * x = Rabs x * Rabs x) by (rewrite <- Rabs_mult; symmetry; apply Rabs_pos_eq; nra). assert (SY : y * y = Rabs y * Rabs y) by (rewrite <- Rabs_mult; symmetry; apply Rabs_pos_eq; nra). assert (SZ : z * z = Rabs z * Rabs z) by (rewrite <- Rabs_mult; symmetry; apply Rabs_pos_eq; nra). rewrite SX, SY, SZ.
  set (a := Rabs x) in *. set (b := Rabs y) in *. set (c := Rabs z) in *. clearbody a b c. pose proof (pow2_ge_0 (a - b)). pose proof (pow2_ge_0 (a - c)). pose proof (pow2_ge_0 (b - c)). nra.
Qed.
(** A computed position within [e] of the exact one in every coordinate, near the surface. *)
Lemma locate_from lk lat lon h xf yf zf e deg : libm2_ok lk -> double xf -> double yf -> double zf -> far xf -> far yf -> far zf -> Rabs lat <= quarter deg -> -990 <= h <= 9990 -> 0 < e <= 20000 / 17321 ->
  within e (xf, yf, zf) (geodetic2ecef lat lon h None deg) -> locates_to (17321 / 10000 * e) deg lat lon h (hypot xf yf) (fl_ecef2geodetic lk xf yf zf None deg).
Proof.
  intros M Dx Dy Dz Fx Fy Fz L H E W. pose proof (near_dist _ _ _ W ltac:(lra)) as D. exact (C93_everywhere_near_earth lk lat lon h xf yf zf (17321 / 10000 * e) deg M Dx Dy Dz Fx Fy Fz L ltac:(lra) ltac:(lra) D).
Qed.
Lemma rot_err_pos t : 0 < rot_err t.
Proof. unfold rot_err. pose proof (Rmax_l 1 (Rabs (IZR (instant t - instant (utc_at 2000 1 1 12 0 0 0))) / (36525 * 86400000000))). destruct (Z.leb _ _); lra. Qed.

(** The geodetic coordinates of an inertial position near the surface, to 2e7 m times [rot_err]: 0.11 m within a century of J2000. *)
Theorem C99_eci2geodetic : forall lk sq cube sum x y z t d xp yp lat lon h deg, libm2_ok lk -> trig_ok (l_base lk) -> pow_ok sq cube -> sum_ok sum -> (forall a b c, double (sum a b c)) -> valid_dt t ->
  Rabs d <= 1000 -> Rabs xp <= 100000 -> Rabs yp <= 100000 -> eci2ecef x y z t d xp yp = Ok (geodetic2ecef lat lon h None deg) -> Rabs lat <= quarter deg -> -990 <= h <= 9990 ->
  exists xf yf zf, fl_eci2ecef (l_base lk) sq cube sum x y z t d xp yp = Ok (xf, yf, zf) /\ exists q, fl_eci2geodetic (l_base lk) sq cube sum lk x y z t None deg d xp yp = Ok q /\
  (far xf -> far yf -> far zf -> locates_to (2 * 10 ^ 7 * rot_err t) deg lat lon h (hypot xf yf) q).
Proof.
  intros lk sq cube sum x y z t d xp yp lat lon h deg M MT P S SD V HD HX HY E L H.
  assert (N : vnorm (x, y, z) <= 6388137).
  { pose proof (norm_earth lat lon h deg) as NE. assert (AH : Rabs h <= 9990) by (apply Rabs_le; lra). unfold eci2ecef in E. destruct (eci_to_ecef_matrix t d xp yp) as [A|] eqn:EA; [|discriminate]. cbn [bind] in E. apply L_eci.ok_inj in E. rewrite <- E in NE. change eo_matvec3 with matvec3 in NE.
    unfold vnorm in *. rewrite (L_eci.rot_dot A (x, y, z) (x, y, z) (L_eci.eci_matrix_rot t d xp yp A EA)) in NE. lra. }
  pose proof (sum_norm x y z) as SN. assert (B14 : Rabs x + Rabs y + Rabs z <= 10 ^ 14) by lra.
  destruct (C99_eci2ecef (l_base lk) sq cube sum x y z t d xp yp _ MT P S V HD HX HY B14 E) as (pf & EF & Q).
  assert (DF : forall i, double (v_at pf i)). { intros i. unfold fl_eci2ecef in EF. destruct (fl_eci_to_ecef_matrix (l_base lk) sq cube sum t d xp yp) as [Af|]; [|discriminate]. cbn [bind] in EF. apply L_eci.ok_inj in EF. rewrite <- EF. apply fl_matvec_double. exact SD. }
  assert (RS : rot_err t <= / 10000000). { unfold eci2ecef in E. destruct (eci_to_ecef_matrix t d xp yp) as [A|] eqn:EA; [|discriminate]. destruct (proj1 (C99_rotation_defined (l_base lk) sq cube sum t d xp yp) (ex_intro _ A EA)) as [Af EFA]. destruct (rotation_err (l_base lk) sq cube sum t d xp yp A Af MT P S V HD HX HY EA EFA) as [_ R]. lra. }
  pose proof (rot_err_pos t) as RP. unfold fl_eci2geodetic. rewrite EF. destruct pf as [[xf yf] zf]. exists xf, yf, zf. split; [reflexivity|]. cbn [bind]. eexists. split; [reflexivity|]. intros Fx Fy Fz.
  pose proof (DF 0%nat) as Dx. pose proof (DF 1%nat) as Dy. pose proof (DF 2%nat) as Dz. pose proof (Q 0%nat) as Q0. pose proof (Q 1%nat) as Q1. pose proof (Q 2%nat) as Q2. clear DF Q. cbn [v_at] in Dx, Dy, Dz.
  assert (MX : Rmax 1 (Rabs x + Rabs y + Rabs z) <= 11065000) by (apply Rmax_lub; lra). assert (MR : rot_err t * Rmax 1 (Rabs x + Rabs y + Rabs z) <= rot_err t * 11065000) by (apply Rmult_le_compat_l; lra).
  replace (2 * 10 ^ 7 * rot_err t) with (17321 / 10000 * (2 * 10 ^ 7 * 10000 / 17321 * rot_err t)) by (field; lra). apply (locate_from lk lat lon h xf yf zf _ deg M Dx Dy Dz Fx Fy Fz L H); [lra|].
  destruct (geodetic2ecef lat lon h None deg) as [[xe ye] ze]. cbn [v_at] in Q0, Q1, Q2. unfold within. repeat split; lra.
Qed.
(** geodetic2eci and back, both in binary64: 11 micrometres. *)
Theorem C99_geodetic_round_trip : forall lk sq cube sum lat lon h t deg p, libm2_ok lk -> trig_ok (l_base lk) -> pow_ok sq cube -> sum_ok sum -> (forall a b c, double (sum a b c)) -> valid_dt t ->
  site_ok lat lon h deg -> -990 <= h <= 9990 -> forall d xp yp, fl_geodetic2eci (l_base lk) sq cube sum lat lon h t None deg d xp yp = Ok p ->
  exists xf yf zf, fl_eci2ecef (l_base lk) sq cube sum (v_at p 0) (v_at p 1) (v_at p 2) t 0 0 0 = Ok (xf, yf, zf) /\ exists q, fl_eci2geodetic (l_base lk) sq cube sum lk (v_at p 0) (v_at p 1) (v_at p 2) t None deg 0 0 0 = Ok q /\
  (far xf -> far yf -> far zf -> locates_to (11 / 10 ^ 6) deg lat lon h (hypot xf yf) q).
Proof.
  intros lk sq cube sum lat lon h t deg p M MT P S SD V ST H d xp yp E. pose proof (P_rounding.C92_geodetic2ecef (l_base lk) lat lon h None deg (proj1 M) P_rounding.wgs_axes ST) as W. destruct ST as (_ & _ & _ & L1 & _). pose proof (norm_earth lat lon h deg) as NE. assert (AH : Rabs h <= 9990) by (apply Rabs_le; lra).
  assert (EP : 0 < 65 * uu * reach None h <= 5123 / 10 ^ 11).
  { unfold reach. cbn [ell_a]. pose proof (Rabs_pos h). assert (U : 0 < uu <= 11103 / 10 ^ 20) by (unfold uu; lra). set (w := 10 / 9 * 6378137 + Rabs h) in *. assert (0 < w <= 70969 * 100) by (unfold w; lra). clearbody w. split; [apply Rmult_lt_0_compat; lra|]. assert (uu * w <= 11103 / 10 ^ 20 * (70969 * 100)) by (apply Rmult_le_compat; lra). lra. }
  unfold fl_geodetic2eci in E. destruct (fl_geodetic2ecef (l_base lk) lat lon h None deg) as [[x y] z]. destruct (geodetic2ecef lat lon h None deg) as [[xe ye] ze] eqn:GE. destruct W as (W1 & W2 & W3).
  pose proof (sum_norm xe ye ze) as SN. assert (TT : forall a b, Rabs (a - b) < 65 * uu * reach None h -> Rabs a <= Rabs b + 5123 / 10 ^ 11) by (intros a b K; pose proof (Rabs_triang (a - b) b) as T; replace (a - b + b) with a in T by ring; lra). pose proof (TT _ _ W1). pose proof (TT _ _ W2). pose proof (TT _ _ W3).
  assert (B13 : Rabs x + Rabs y + Rabs z <= 10 ^ 13) by lra. assert (K0 : Rabs 0 <= 1000) by (rewrite Rabs_R0; lra). assert (K1 : Rabs 0 <= 100000) by (rewrite Rabs_R0; lra).
  destruct (proj2 (C99_roundtrip (l_base lk) sq cube sum x y z t 0 0 0 MT P S V K0 K1 K1 B13) p E) as (q & EF & Q).
  assert (DF : forall i, double (v_at q i)). { intros i. unfold fl_eci2ecef in EF. destruct (fl_eci_to_ecef_matrix (l_base lk) sq cube sum t 0 0 0) as [Af|]; [|discriminate]. cbn [bind] in EF. apply L_eci.ok_inj in EF. rewrite <- EF. apply fl_matvec_double. exact SD. }
  unfold fl_eci2geodetic. rewrite EF. destruct q as [[xf yf] zf]. exists xf, yf, zf. split; [reflexivity|]. cbn [bind]. eexists. split; [reflexivity|]. intros Fx Fy Fz.
  pose proof (DF 0%nat) as Dx. pose proof (DF 1%nat) as Dy. pose proof (DF 2%nat) as Dz. pose proof (Q 0%nat) as Q0. pose proof (Q 1%nat) as Q1. pose proof (Q 2%nat) as Q2. clear DF Q. cbn [v_at] in *.
  assert (MX : Rmax 1 (Rabs x + Rabs y + Rabs z) <= 11065000) by (apply Rmax_lub; lra).
  replace (11 / 10 ^ 6) with (17321 / 10000 * (11 / 10 ^ 6 * 10000 / 17321)) by (field; lra). apply (locate_from lk lat lon h xf yf zf _ deg M Dx Dy Dz Fx Fy Fz L1 H); [lra|]. rewrite GE.
  assert (T3 : forall a b c, Rabs (a - b) <= 6.09 / 10 ^ 6 -> Rabs (b - c) < 65 * uu * reach None h -> Rabs (a - c) < 11 / 10 ^ 6 * 10000 / 17321).
  { intros a b c A B. replace (a - c) with ((a - b) + (b - c)) by ring. apply Rle_lt_trans with (1 := Rabs_triang _ _). lra. }
  unfold within. split; [|split]; [apply (T3 _ x)|apply (T3 _ y)|apply (T3 _ z)]; try assumption; lra.
Qed.
(** The site of [C99_geodetic2eci_hypotheses_met] has an inertial position; both summations return doubles. *)
Example C99_eci2geodetic_hypotheses_met : (forall a b c, double (compensated_sum a b c)) /\ sum_ok compensated_sum /\ Rabs 45 <= quarter true /\ -990 <= 200 <= 9990 /\
  (exists x y z, eci2ecef x y z (utc_at 2024 2 29 18 0 0 0) 0.1 0.2 0.3 = Ok (geodetic2ecef 45 (-75) 200 None true)) /\
  forall m sq cube, exists p, fl_geodetic2eci m sq cube compensated_sum 45 (-75) 200 (utc_at 2024 2 29 18 0 0 0) None true 0 0 0 = Ok p.
Proof.
  split; [exact compensated_sum_double|]. split; [exact compensated_sum_ok|]. split; [unfold quarter; rewrite Rabs_pos_eq; lra|]. split; [lra|]. split.
  - destruct C99_eci2ecef_hypotheses_met as (_ & _ & p & E). unfold eci2ecef in E. unfold eci2ecef. destruct (eci_to_ecef_matrix (utc_at 2024 2 29 18 0 0 0) 0.1 0.2 0.3) as [A|] eqn:EA; [|discriminate].
    pose proof (L_frames.transpose_rot_vec A (geodetic2ecef 45 (-75) 200 None true) (L_eci.eci_matrix_rot _ _ _ _ A EA)) as T. destruct (matvec3 (transpose3 A) (geodetic2ecef 45 (-75) 200 None true)) as [[x y] z]. exists x, y, z. cbn [bind]. f_equal. exact T.
  - intros m sq cube. destruct C99_geodetic2eci_hypotheses_met as (_ & _ & _ & (p & E) & _). unfold geodetic2eci in E. unfold fl_geodetic2eci. destruct (geodetic2ecef _ _ _ _ _) as [[x y] z]. destruct (fl_geodetic2ecef _ _ _ _ _ _) as [[xf yf] zf]. unfold ecef2eci in E. destruct (eci_to_ecef_matrix (utc_at 2024 2 29 18 0 0 0) 0 0 0) as [A|] eqn:EA; [|discriminate].
    destruct (proj1 (C99_rotation_defined m sq cube compensated_sum (utc_at 2024 2 29 18 0 0 0) 0 0 0) (ex_intro _ A EA)) as [Af EF]. unfold fl_ecef2eci. rewrite EF. eexists. reflexivity.
Qed.
