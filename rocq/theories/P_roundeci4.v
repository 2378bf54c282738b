(** Property C99, continued: eci2aer in binary64. *)
From Coq Require Import Reals ZArith Lra Lia Psatz.
From Flocq Require Import Core.
From Verif Require Import PyMath L_PyMath M_ellipsoid M_time M_ecef M_frames M_earth M_eci M_float M_floatenu M_floatgeo M_floataer M_floattime M_floatsid M_floateci M_floateci2 Spec Spec_time Spec_float P_float L_float P_roundtime P_roundsid P_roundsid2 P_roundeci P_roundeci2 P_roundeci3.
From Verif Require L_eci L_frames L_aer P_rounding P_roundgeo P_lookangles.
Open Scope R_scope.

Lemma comp_norm a b c : Rabs a <= vnorm (a, b, c) /\ Rabs b <= vnorm (a, b, c) /\ Rabs c <= vnorm (a, b, c).
Proof.
  unfold vnorm, vdot. pose proof (pow2_ge_0 a). pose proof (pow2_ge_0 b). pose proof (pow2_ge_0 c).
  split; [|split]; rewrite <- (sqrt_pow2 (Rabs _)) by apply Rabs_pos; apply sqrt_le_1_alt; rewrite pow2_abs; lra.
Qed.
(** A target seen from a site: at azimuth [a], elevation [q] and distance [D] of it, the computed angles and range are off by about
    [delta] across and along the line of sight; 0.23 m for a target at 7000 km, within a century of J2000, one millimetre of it because enu2aer trims. *)
Theorem C99_eci2aer : forall lk sq cube sum x y z t d xp yp xe ye ze lat0 lon0 h0 deg D a q, libm2_ok lk -> trig_ok (l_base lk) -> pow_ok sq cube -> sum_ok sum -> (forall a b c, double (sum a b c)) -> valid_dt t ->
  Rabs d <= 1000 -> Rabs xp <= 100000 -> Rabs yp <= 100000 -> Rabs x + Rabs y + Rabs z <= 10 ^ 13 -> eci2ecef x y z t d xp yp = Ok (xe, ye, ze) -> site_ok lat0 lon0 h0 deg -> reach None h0 <= 10 ^ 13 ->
  0 < D -> Rabs q <= PI / 2 -> ecef2enu xe ye ze lat0 lon0 h0 None deg = P_lookangles.look D a q ->
  exists azf elf rf, fl_eci2aer (l_base lk) sq cube sum lk x y z lat0 lon0 h0 t deg d xp yp = Ok (azf, elf, rf) /\
  let delta := 2 * rot_err t * (Rmax 1 (Rabs x + Rabs y + Rabs z) + reach None h0) + 1001 / 10 ^ 6 in
  (20 * delta <= D * cos q -> exists k : Z, Rabs (as_rad deg azf - a - IZR k * (2 * PI)) <= 42 * uu + 3 / 2 * (delta / (D * cos q))) /\
  (20 * delta <= D -> Rabs (as_rad deg elf - q) <= 18 * uu + 2 * (delta / D)) /\
  Rabs (rf - D) <= 9 * uu * D + 2 * delta.
Proof.
  intros lk sq cube sum x y z t d xp yp xe ye ze lat0 lon0 h0 deg D a q M MT P S SD V HD HX HY HB E ST HR HDp Hq EN.
  assert (B14 : Rabs x + Rabs y + Rabs z <= 10 ^ 14) by lra. destruct (C99_eci2ecef (l_base lk) sq cube sum x y z t d xp yp _ MT P S V HD HX HY B14 E) as (pf & EF & Q).
  assert (DF : forall i, double (v_at pf i)). { intros i. unfold fl_eci2ecef in EF. destruct (fl_eci_to_ecef_matrix (l_base lk) sq cube sum t d xp yp) as [Af|]; [|discriminate]. cbn [bind] in EF. apply L_eci.ok_inj in EF. rewrite <- EF. apply fl_matvec_double. exact SD. }
  assert (RS : rot_err t <= / 10000000 /\ forall i, Rabs (v_at (xe, ye, ze) i) <= Rabs x + Rabs y + Rabs z).
  { unfold eci2ecef in E. destruct (eci_to_ecef_matrix t d xp yp) as [A|] eqn:EA; [|discriminate]. destruct (proj1 (C99_rotation_defined (l_base lk) sq cube sum t d xp yp) (ex_intro _ A EA)) as [Af EFA]. destruct (rotation_err (l_base lk) sq cube sum t d xp yp A Af MT P S V HD HX HY EA EFA) as [_ R]. split; [lra|]. cbn [bind] in E. apply L_eci.ok_inj in E. rewrite <- E. intros i. rewrite mv_at. cbn [v_at].
    destruct (rot_row A i (L_eci.eci_matrix_rot t d xp yp A EA)) as (R0 & R1 & R2 & _). apply Rle_trans with (1 := Rabs_triang _ _). pose proof (Rabs_triang (m_at A i 0 * x) (m_at A i 1 * y)) as T. rewrite !Rabs_mult in *.
    pose proof (Rmult_le_compat_r (Rabs x) _ _ (Rabs_pos x) R0). pose proof (Rmult_le_compat_r (Rabs y) _ _ (Rabs_pos y) R1). pose proof (Rmult_le_compat_r (Rabs z) _ _ (Rabs_pos z) R2). lra. }
  destruct RS as (RS & XB). assert (RL : 5.5 / 10 ^ 9 <= rot_err t). { unfold rot_err. pose proof (Rmax_l 1 (Rabs (IZR (instant t - instant (utc_at 2000 1 1 12 0 0 0))) / (36525 * 86400000000))). destruct (Z.leb _ _); lra. }
  unfold fl_eci2aer. rewrite EF. destruct pf as [[xf yf] zf]. cbn [bind]. unfold fl_ecef2aer.
  pose proof (DF 0%nat) as Dx. pose proof (DF 1%nat) as Dy. pose proof (DF 2%nat) as Dz. pose proof (Q 0%nat) as Q0. pose proof (Q 1%nat) as Q1. pose proof (Q 2%nat) as Q2. pose proof (XB 0%nat) as X0. pose proof (XB 1%nat) as X1. pose proof (XB 2%nat) as X2. clear DF Q XB EF. cbn [v_at] in *.
  pose proof (Rmax_l 1 (Rabs x + Rabs y + Rabs z)) as M1. pose proof (Rmax_r 1 (Rabs x + Rabs y + Rabs z)) as M2. assert (M3 : Rmax 1 (Rabs x + Rabs y + Rabs z) <= 10 ^ 13) by (apply Rmax_lub; lra). set (X := Rmax 1 (Rabs x + Rabs y + Rabs z)) in *. clearbody X. set (r := rot_err t) in *. clearbody r.
  assert (R1 : 1 <= reach None h0) by (unfold reach; cbn [ell_a]; pose proof (Rabs_pos h0); lra). assert (RX : 5.5 / 10 ^ 9 * X <= r * X <= / 10000000 * X) by (split; apply Rmult_le_compat_r; lra). assert (RR : 5.5 / 10 ^ 9 * reach None h0 <= r * reach None h0) by (apply Rmult_le_compat_r; lra).
  assert (BF : forall vf v, Rabs (vf - v) <= r * X -> Rabs v <= Rabs x + Rabs y + Rabs z -> Rabs vf <= 1.01 * X) by (intros vf v K L; pose proof (Rabs_triang (vf - v) v) as T; replace (vf - v + v) with vf in T by ring; lra).
  pose proof (BF _ _ Q0 X0) as F0. pose proof (BF _ _ Q1 X1) as F1. pose proof (BF _ _ Q2 X2) as F2. clear BF.
  assert (H300 : / 10 ^ 300 <= 1.01 * X). { assert (/ 10 ^ 300 <= 1); [|lra]. rewrite <- Rinv_1. apply Rinv_le_contravar; [lra|]. apply pow_R1_Rle. lra. }
  pose proof (P_rounding.C92_ecef2enu (l_base lk) xf yf zf lat0 lon0 h0 (1.01 * X) None deg (proj1 M) P_rounding.wgs_axes ST F0 F1 F2 H300) as W. clear H300.
  assert (DV : vdist3 (xf, yf, zf) (xe, ye, ze) <= 17321 / 10000 * (1.001 * (r * X))) by (apply P_roundgeo.near_dist; [unfold within; repeat split; lra|lra]).
  rewrite <- (L_frames.ecef2enu_dist xf yf zf xe ye ze lat0 lon0 h0 None deg), EN in DV.
  assert (DD : let '(e, n, u) := fl_ecef2enu (l_base lk) xf yf zf lat0 lon0 h0 None deg in double e /\ double n /\ double u).
  { unfold fl_ecef2enu. destruct (fl_geodetic2ecef (l_base lk) lat0 lon0 h0 None deg) as [[? ?] ?]. unfold fl_uvw2enu. cbv zeta. refine (conj _ (conj _ _)); apply rnd_double. }
  assert (LB : let '(e, n, u) := P_lookangles.look D a q in Rabs e <= 10 ^ 15 /\ Rabs n <= 10 ^ 15 /\ Rabs u <= 10 ^ 15).
  { rewrite <- EN. pose proof (P_rounding.ecef2enu_ap (l_base lk) xe ye ze lat0 lon0 h0 X None deg (proj1 M) P_rounding.wgs_axes ST 0 xe ye ze) as G. assert (A0 : forall v, Rabs v <= Rabs x + Rabs y + Rabs z -> ap 0 X v v) by (intros v L; apply ap_exact; lra). pose proof tny_le_1. specialize (G (A0 _ X0) (A0 _ X1) (A0 _ X2) ltac:(lra) ltac:(lra)).
    destruct (fl_ecef2enu (l_base lk) xe ye ze lat0 lon0 h0 None deg) as [[? ?] ?]. destruct (ecef2enu xe ye ze lat0 lon0 h0 None deg) as [[e n] u]. destruct G as ((_ & G1 & _) & (_ & G2 & _) & (_ & G3 & _)). repeat split; lra. }
  destruct (fl_ecef2enu (l_base lk) xf yf zf lat0 lon0 h0 None deg) as [[ef nf] uf]. destruct DD as (D1 & D2 & D3). destruct (ecef2enu xf yf zf lat0 lon0 h0 None deg) as [[e1 n1] u1]. destruct W as (W1 & W2 & W3).
  set (delta := 2 * r * (X + reach None h0) + 1001 / 10 ^ 6). assert (DE : 1.734 * (r * X) + 310 * uu * (1.01 * X + reach None h0) <= delta - 10002 / 10000000 /\ delta <= 10 ^ 8).
  { unfold delta. assert (U : 310 * uu * (1.01 * X + reach None h0) <= 4 / 10 ^ 14 * (1.01 * X + reach None h0)) by (apply Rmult_le_compat_r; [lra|unfold uu; lra]). assert (r * reach None h0 <= / 10000000 * 10 ^ 13) by (apply Rmult_le_compat; lra). split; lra. }
  destruct DE as (DE & DB). assert (TE : 0 <= uu) by (pose proof uu_pos; lra). clearbody delta.
  destruct (P_lookangles.look D a q) as [[e n] u] eqn:LK. destruct LB as (LB1 & LB2 & LB3). unfold vdist3, vsub in DV. pose proof (comp_norm (e1 - e) (n1 - n) (u1 - u)) as (C1 & C2 & C3).
  set (w := 310 * uu * (1.01 * X + reach None h0)) in *. assert (W0 : 0 <= w) by (unfold w; apply Rmult_le_pos; lra). clearbody w.
  assert (Y : forall vf v1 v, double vf -> Rabs (vf - v1) < w -> Rabs (v1 - v) <= 1.734 * (r * X) -> Rabs v <= 10 ^ 15 -> Rabs (fl_trim vf - v) <= delta /\ Rabs vf <= 10 ^ 20).
  { intros vf v1 v DVf A B C. destruct (P_rounding.trim_fl vf DVf) as (_ & _ & T & _). assert (K : Rabs (vf - v) <= delta - 10002 / 10000000) by (replace (vf - v) with ((vf - v1) + (v1 - v)) by ring; apply Rle_trans with (1 := Rabs_triang _ _); lra). split.
    - replace (fl_trim vf - v) with ((fl_trim vf - vf) + (vf - v)) by ring. apply Rle_trans with (1 := Rabs_triang _ _). lra.
    - replace vf with ((vf - v) + v) by ring. apply Rle_trans with (1 := Rabs_triang _ _). lra. }
  destruct (Y ef e1 e D1 W1 ltac:(lra) LB1) as (Y1 & Z1). destruct (Y nf n1 n D2 W2 ltac:(lra) LB2) as (Y2 & Z2). destruct (Y uf u1 u D3 W3 ltac:(lra) LB3) as (Y3 & Z3).
  assert (N : P_lookangles.near delta (fl_trim ef, fl_trim nf, fl_trim uf) (P_lookangles.look D a q)) by (rewrite LK; unfold P_lookangles.near; auto).
  pose proof (Rabs_pos (fl_trim ef - e)) as DP. pose proof (P_lookangles.C95_direction lk ef nf uf deg delta D a q M D1 D2 D3 Z1 Z2 Z3 ltac:(lra) HDp Hq N) as A. destruct (fl_enu2aer lk ef nf uf deg) as [[azf elf] rf]. destruct A as (A1 & A2 & A3). exists azf, elf, rf. split; [reflexivity|]. cbv zeta.
  split; [|split; [exact A2|exact A3]]. intros K. apply A1; [exact K|]. apply Rnot_le_lt. intros Zc. assert (D * cos q <= D * 0) by (apply Rmult_le_compat_l; lra). lra.
Qed.
(** The hypotheses hold of the position and site of the earlier examples: every displacement has an azimuth, elevation and distance. *)
Example C99_eci2aer_hypotheses_met : exists xe ye ze D a q, eci2ecef 3000000 (-5000000) 4000000 (utc_at 2024 2 29 18 0 0 0) 0.1 0.2 0.3 = Ok (xe, ye, ze) /\ site_ok 45 (-75) 200 true /\ reach None 200 <= 10 ^ 13 /\
  0 < D /\ Rabs q <= PI / 2 /\ ecef2enu xe ye ze 45 (-75) 200 None true = P_lookangles.look D a q.
Proof.
  destruct C99_eci2ecef_hypotheses_met as (_ & _ & [[xe ye] ze] & E). exists xe, ye, ze. destruct (ecef2enu xe ye ze 45 (-75) 200 None true) as [[e n] u] eqn:EN.
  assert (NZ : 0 < vnorm (e, n, u)).
  { assert (N : 7000000 <= vnorm (xe, ye, ze)). { unfold eci2ecef in E. destruct (eci_to_ecef_matrix (utc_at 2024 2 29 18 0 0 0) 0.1 0.2 0.3) as [A|] eqn:EA; [|discriminate]. cbn [bind] in E. apply L_eci.ok_inj in E. rewrite <- E. change eo_matvec3 with matvec3. unfold vnorm. rewrite (L_eci.rot_dot A _ _ (L_eci.eci_matrix_rot _ _ _ _ A EA)). unfold vdot. rewrite <- (sqrt_pow2 7000000) by lra. apply sqrt_le_1_alt. lra. }
    pose proof (P_roundgeo.norm_earth 45 (-75) 200 true) as NE. rewrite (Rabs_pos_eq 200) in NE by lra. rewrite <- EN. assert (VE : vnorm (ecef2enu xe ye ze 45 (-75) 200 None true) = vdist3 (xe, ye, ze) (geodetic2ecef 45 (-75) 200 None true)) by (apply L_aer.ecef2enu_norm). rewrite VE. pose proof (L_aer.vnorm_diff (xe, ye, ze) (geodetic2ecef 45 (-75) 200 None true)) as VD. apply Rabs_le_inv in VD. lra. }
  destruct (P_lookangles.C95_every_direction e n u NZ) as (L1 & L2). eexists _, _, _. split; [exact E|]. destruct C99_geodetic2eci_hypotheses_met as (ST & _). split; [exact ST|]. split; [unfold reach; cbn [ell_a]; rewrite Rabs_pos_eq; lra|]. split; [exact NZ|]. split; [exact L2|exact L1].
Qed.
