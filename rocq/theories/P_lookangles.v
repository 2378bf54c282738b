(** Property C95: look angles and ranges in binary64. *)
From Coq Require Import Reals ZArith Lra Lia Psatz.
From Flocq Require Import Core.
From Verif Require Import PyMath L_PyMath M_ellipsoid M_ecef M_enu M_aer M_float M_floatenu M_floatgeo M_floataer Spec Spec_float P_float L_float P_rounding P_stable P_roundgeo.
From Verif Require L_aer L_ecefacc2 L_frames L_vin3 L_lox L_latitude4.
Open Scope R_scope.

(** The displacement at azimuth t, elevation q and range d. *)
Definition look (d t q : R) : vec3 := (d * cos q * sin t, d * cos q * cos t, d * sin q).
(** Coordinates differ by at most eps. *)
Definition near (eps : R) (p q : vec3) : Prop :=
  let '(a, b, c) := p in let '(a', b', c') := q in
  Rabs (a - a') <= eps /\ Rabs (b - b') <= eps /\ Rabs (c - c') <= eps.

Lemma polar_chord p t p' t' : 0 <= p -> 0 <= p' ->
  sqrt (p * p') * (2 * Rabs (sin ((t - t') / 2))) <= hypot (p * cos t - p' * cos t') (p * sin t - p' * sin t').
Proof.
  intros P P'. pose proof (chord_sin (t - t')) as CS. set (s := sin ((t - t') / 2)) in *.
  assert (PP : 0 <= p * p') by (apply Rmult_le_pos; assumption). replace (sqrt (p * p') * (2 * Rabs s)) with (sqrt (p * p' * (2 * s) ^ 2)) by (rewrite sqrt_mult by (try apply pow2_ge_0; assumption); f_equal; replace (2 * Rabs s) with (Rabs (2 * s)) by (rewrite Rabs_mult, Rabs_pos_eq; lra); rewrite <- (pow2_abs (2 * s)); apply sqrt_pow2, Rabs_pos).
  unfold hypot. apply sqrt_le_1_alt. rewrite <- CS, cos_minus. pose proof (pow2_ge_0 (p - p')) as Q1. pose proof (sin_pow2 t) as T1. pose proof (sin_pow2 t') as T2.
  replace ((p * cos t - p' * cos t') ^ 2 + (p * sin t - p' * sin t') ^ 2) with (p ^ 2 * (cos t ^ 2 + sin t ^ 2) + p' ^ 2 * (cos t' ^ 2 + sin t' ^ 2) - 2 * (p * p') * (cos t * cos t' + sin t * sin t')) by ring.
  rewrite T1, T2. lra.
Qed.
(** Directions of nearby plane vectors. *)
Lemma polar_angle p t x y c : 0 < p -> 0 < c -> c ^ 2 <= p * hypot x y -> hypot (x - p * cos t) (y - p * sin t) <= c / 10 ->
  Rabs (atan2 y x - t) <= PI -> Rabs (atan2 y x - t) <= 1001 / 1000 * (hypot (x - p * cos t) (y - p * sin t) / c).
Proof.
  intros P C CP D T. pose proof (polar_chord (hypot x y) (atan2 y x) p t (hypot_nonneg _ _) ltac:(lra)) as H. rewrite hypot_cos_atan2, hypot_sin_atan2 in H. set (d := hypot (x - _) _) in *. clearbody d.
  assert (Q : c <= sqrt (hypot x y * p)) by (rewrite <- (sqrt_pow2 c) by lra; apply sqrt_le_1_alt; lra). set (s := sqrt _) in *. clearbody s. set (v := 2 * Rabs (sin _)) in *. assert (V : 0 <= v) by (pose proof (Rabs_pos (sin ((atan2 y x - t) / 2))); unfold v; lra).
  apply small_angle; [exact T| |].
  - fold v. apply Rmult_le_reg_l with c; [exact C|]. replace (c * (d / c)) with d by (field; lra). apply Rle_trans with (2 := H). apply Rmult_le_compat_r; lra.
  - apply Rmult_le_reg_l with c; [exact C|]. replace (c * (d / c)) with d by (field; lra). lra.
Qed.
Lemma lh m p q : libm_ok m -> double p -> double q -> (p = 0 \/ 1 / 2000 <= Rabs p) -> (q = 0 \/ 1 / 2000 <= Rabs q) -> Rabs p <= 10 ^ 30 -> Rabs q <= 10 ^ 30 ->
  Rabs (l_hypot m p q - hypot p q) <= 4 * uu * hypot p q /\ (l_hypot m p q = 0 \/ 1 / 2000 <= Rabs p \/ 1 / 2000 <= Rabs q).
Proof.
  intros M Dp Dq Hp Hq Lp Lq. destruct M as (_ & _ & HM & _ & _ & _ & _ & _ & _ & _ & HZ). pose proof (hypot_ge p q) as [G1 G2]. pose proof (hypot_tri p q) as G3.
  assert (N : forall t, 1 / 2000 <= t <= 2 * 10 ^ 30 -> / 10 ^ 200 <= t <= 10 ^ 200).
  { intros t Ht. assert (X : 10 ^ 31 <= 10 ^ 200) by (apply Rle_pow; [lra|lia]). assert (Y : / 10 ^ 200 <= / 10 ^ 31) by (apply Rinv_le_contravar; [lra|exact X]). set (big := 10 ^ 200) in *. clearbody big. lra. }
  destruct Hp as [->|Hp]; [destruct Hq as [->|Hq]|]; [|split; [apply HM; try assumption; apply N; lra|right; now right]|split; [apply HM; try assumption; apply N; lra|right; now left]].
  rewrite HZ. replace (hypot 0 0) with 0 by (unfold hypot; replace (0 ^ 2 + 0 ^ 2) with 0 by ring; symmetry; apply sqrt_0). rewrite Rminus_0_r, Rabs_R0. split; [lra|now left].
Qed.
(** The reduction modulo the double nearest a full turn. *)
Lemma tau_fl : Rabs (rnd (2 * PI) - 2 * PI) <= 63 / 10 * uu.
Proof.
  pose proof PI_RGT_0. pose proof L_vin3.pi_315. pose proof tny_le_1. pose proof (rnd_err (2 * PI) (63 / 10) ltac:(rewrite Rabs_pos_eq; lra) ltac:(lra)). lra.
Qed.
Lemma mod_turn x : double x -> Rabs x <= 32 / 10 -> let r := fl_mod x (rnd (2 * PI)) in
  double r /\ 0 <= r <= rnd (2 * PI) /\ (x < 0 -> r = rnd (x + rnd (2 * PI))) /\ exists k : Z, Rabs (r - x - IZR k * (2 * PI)) <= 127 / 10 * uu.
Proof.
  intros D B. cbv zeta. pose proof tau_fl as T. apply abs_bounds in T. pose proof uu_pos as U0. pose proof uu_small as U1. pose proof L_vin3.pi_31 as P1. pose proof L_vin3.pi_315 as P3. pose proof tny_le_1 as TN.
  set (m := rnd (2 * PI)) in *. assert (DM : double m) by apply rnd_double. apply abs_bounds in B. assert (Q : Ztrunc (x / m) = 0%Z).
  { assert (- 1 < x / m < 1) by (split; apply Rmult_lt_reg_r with m; try lra; unfold Rdiv; rewrite Rmult_assoc, Rinv_l by lra; lra). unfold Ztrunc. destruct (Rlt_bool_spec (x / m) 0); [apply Zceil_imp; simpl; lra|apply Zfloor_imp; simpl; lra]. }
  unfold fl_mod, fl_fmod. rewrite Q. replace (x - m * IZR 0) with x by (simpl; ring). rewrite (rnd_id x D). assert (M0 : 0 < m) by lra. clearbody m.
  destruct (Req_EM_T x 0) as [X|X].
  { split; [apply (double_int 0); reflexivity|]. split; [lra|]. split; [lra|]. exists 0%Z. rewrite X. replace (0 - 0 - 0 * (2 * PI)) with 0 by ring. rewrite Rabs_R0. lra. }
  destruct (Rlt_dec m 0) as [F|_]; [lra|]. destruct (Rlt_dec x 0) as [N|N].
  - unfold fl_add. split; [apply rnd_double|]. split.
    { split; [rewrite <- rnd0; apply round_le; [apply FLT_exp_valid; reflexivity|apply valid_rnd_N|lra]|]. rewrite <- (rnd_id m DM) at 2. apply round_le; [apply FLT_exp_valid; reflexivity|apply valid_rnd_N|lra]. }
    split; [reflexivity|]. exists 1%Z. pose proof (rnd_err (x + m) (631 / 100) ltac:(apply Rabs_le; lra) ltac:(lra)) as E. apply abs_bounds in E. apply Rabs_le. lra.
  - split; [exact D|]. split; [lra|]. split; [lra|]. exists 0%Z. replace (x - x - 0 * (2 * PI)) with 0 by ring. rewrite Rabs_R0. lra.
Qed.
Lemma rad_err (lk : libm2) (deg : bool) (v : R) : libm2_ok lk -> double v -> Rabs v <= 7 ->
  Rabs (as_rad deg (if deg then l_degrees lk v else v) - v) <= (3 * Rabs v + 1 / 100) * uu.
Proof.
  intros M D V. pose proof uu_pos as U0. pose proof (Rabs_pos v). unfold as_rad. destruct deg; [|replace (v - v) with 0 by ring; rewrite Rabs_R0; apply Rmult_le_pos; lra].
  destruct M as (_ & _ & _ & _ & _ & _ & _ & Q & _). specialize (Q v D V). pose proof PI_RGT_0 as P0. pose proof L_vin3.pi_315 as P3. pose proof e300 as E3. set (s := / 10 ^ 300) in *. clearbody s.
  replace (l_degrees lk v * PI / 180 - v) with (PI / 180 * (l_degrees lk v - degrees v)) by (unfold degrees; field; lra). replace (degrees v) with (180 / PI * v) in * by (unfold degrees; field; lra). rewrite Rabs_mult, (Rabs_pos_eq (PI / 180)) by lra. rewrite (Rabs_mult (180 / PI)), (Rabs_pos_eq (180 / PI)) in Q by (apply Rmult_le_pos; [lra|left; apply Rinv_0_lt_compat; lra]).
  apply Rle_trans with (PI / 180 * (3 * uu * (180 / PI * Rabs v) + s)); [apply Rmult_le_compat_l; lra|]. replace (PI / 180 * (3 * uu * (180 / PI * Rabs v) + s)) with (3 * uu * Rabs v + PI / 180 * s) by (field; lra). assert (PI / 180 * s <= 1 * (uu / 100)) by (destruct (Rle_lt_dec 0 s); [apply Rmult_le_compat; lra|assert (0 <= PI / 180 * (- s)) by (apply Rmult_le_pos; lra); lra]). lra.
Qed.

(** ** C95 *)
(** The look angles and range of the trimmed displacement, against any displacement near it. *)
Theorem C95_direction : forall lk e n u deg d D t q, libm2_ok lk -> double e -> double n -> double u ->
  Rabs e <= 10 ^ 20 -> Rabs n <= 10 ^ 20 -> Rabs u <= 10 ^ 20 -> 0 <= d -> 0 < D -> Rabs q <= PI / 2 ->
  near d (fl_trim e, fl_trim n, fl_trim u) (look D t q) ->
  let '(azf, elf, rf) := fl_enu2aer lk e n u deg in
  (20 * d <= D * cos q -> 0 < cos q -> exists k : Z, Rabs (as_rad deg azf - t - IZR k * (2 * PI)) <= 42 * uu + 3 / 2 * (d / (D * cos q))) /\
  (20 * d <= D -> Rabs (as_rad deg elf - q) <= 18 * uu + 2 * (d / D)) /\
  Rabs (rf - D) <= 9 * uu * D + 2 * d.
Proof.
  intros lk e n u deg d D t q M De Dn Du Be Bn Bu Hd HD Hq N. destruct (trim_fl e De) as (A1 & A2 & A3 & A4 & A5). destruct (trim_fl n Dn) as (B1 & B2 & B3 & B4 & B5). destruct (trim_fl u Du) as (C1 & C2 & C3 & C4 & C5).
  unfold fl_enu2aer. cbv zeta. set (e' := fl_trim e) in *. set (n' := fl_trim n) in *. set (u' := fl_trim u) in *. clearbody e' n' u'. pose proof uu_pos as U0. pose proof uu_small as U1. destruct N as (N1 & N2 & N3).
  assert (E' : Rabs e' <= 10 ^ 20) by (clear - A5 Be; lra). assert (N' : Rabs n' <= 10 ^ 20) by (clear - B5 Bn; lra). assert (U' : Rabs u' <= 10 ^ 20) by (clear - C5 Bu; lra). clear A3 A4 A5 B3 B4 B5 C3 C4 C5 Be Bn Bu De Dn Du.
  destruct (lh (l_base lk) e' n' (proj1 M) A1 B1) as (L1 & L1'); try (clear - A2 B2 E' N'; lra). pose proof (hypot_ge e' n') as [T2 T3]. pose proof (hypot_tri e' n') as T1. assert (DR : double (l_hypot (l_base lk) e' n')) by apply M.
  set (r := l_hypot (l_base lk) e' n') in *. set (r0 := hypot e' n') in *. assert (R0 : 0 <= r0) by apply hypot_nonneg.
  assert (UR : 0 <= uu * r0 <= / 1000000000000000 * r0) by (split; [apply Rmult_le_pos; lra|apply Rmult_le_compat_r; lra]). apply abs_bounds in L1 as L1a.
  assert (RP : 0 <= r) by (clear - L1a UR; lra). assert (R1 : r = 0 \/ 1 / 2000 <= Rabs r). { rewrite (Rabs_pos_eq r) by exact RP. destruct L1' as [Z|[Z|Z]]; [now left| |]; right; [destruct A2 as [X|X]|destruct B2 as [X|X]]; try (rewrite X, Rabs_R0 in Z; lra); clear - X T2 T3 L1a UR; lra. }
  destruct (lh (l_base lk) r u' (proj1 M) DR C1 R1) as (L2 & _); try (rewrite ?(Rabs_pos_eq r) by exact RP; clear - C2 U' L1a UR T1 E' N'; lra).
  assert (HY : forall a b, Rabs a <= d -> Rabs b <= d -> hypot a b <= 14143 / 10000 * d). { intros a b Ha Hb. unfold hypot. rewrite <- (sqrt_pow2 (14143 / 10000 * d)) by lra. apply sqrt_le_1_alt. rewrite <- (pow2_abs a), <- (pow2_abs b). pose proof (Rabs_pos a). pose proof (Rabs_pos b). assert (Rabs a ^ 2 <= d ^ 2) by (apply pow_incr; lra). assert (Rabs b ^ 2 <= d ^ 2) by (apply pow_incr; lra). assert (0 <= d ^ 2) by apply pow2_ge_0. clear - H1 H2 H3. lra. }
  pose proof PI_RGT_0 as P0. assert (CQ : 0 <= cos q) by (apply abs_bounds in Hq; apply cos_ge_0; lra). assert (DC : 0 <= D * cos q) by (apply Rmult_le_pos; lra).
  assert (H1 : hypot (n' - D * cos q * cos t) (e' - D * cos q * sin t) <= 14143 / 10000 * d) by (apply HY; assumption).
  assert (RQ : Rabs (r0 - D * cos q) <= 14143 / 10000 * d).
  { unfold r0. apply Rle_trans with (2 := H1). rewrite hypot_comm. rewrite <- (hypot_polar (D * cos q) t) at 1 by exact DC. apply L_ecefacc2.hypot_lip. }
  apply abs_bounds in RQ. set (p := D * cos q) in *. assert (PD : p <= D) by (pose proof (COS_bound q); unfold p; replace D with (D * 1) at 2 by ring; apply Rmult_le_compat_l; lra).
  set (H2 := hypot (r - p) (u' - D * sin q)).
  assert (Q2 : H2 <= 17322 / 10000 * d + 4 * (uu * r0)).
  { clear - L1a RQ N3 UR Hd. unfold H2, hypot. set (s := uu * r0) in *. rewrite <- (sqrt_pow2 (17322 / 10000 * d + 4 * s)) by lra. apply sqrt_le_1_alt. assert (X : Rabs (r - p) <= 14143 / 10000 * d + 4 * s) by (apply Rabs_le; unfold s; lra). rewrite <- (pow2_abs (r - p)), <- (pow2_abs (u' - D * sin q)). pose proof (Rabs_pos (r - p)). pose proof (Rabs_pos (u' - D * sin q)).
    assert (Rabs (r - p) ^ 2 <= (14143 / 10000 * d + 4 * s) ^ 2) by (apply pow_incr; lra). assert (Rabs (u' - D * sin q) ^ 2 <= d ^ 2) by (apply pow_incr; lra). clearbody s. assert (0 <= d * s) by (apply Rmult_le_pos; lra). assert (0 <= d ^ 2) by apply pow2_ge_0. lra. }
  assert (HQ : Rabs (hypot r u' - D) <= H2). { rewrite <- (hypot_polar D q) at 1 by lra. apply L_ecefacc2.hypot_lip. }
  assert (UR2 : uu * r0 <= uu * D + uu * (2 * d)) by (rewrite <- Rmult_plus_distr_l; apply Rmult_le_compat_l; lra). assert (UD : 0 <= uu * d <= / 1000000000000000 * d) by (split; [apply Rmult_le_pos; lra|apply Rmult_le_compat_r; lra]). assert (UDD : 0 <= uu * D <= / 1000000000000000 * D) by (split; [apply Rmult_le_pos; lra|apply Rmult_le_compat_r; lra]).
  assert (H20 : 0 <= H2) by apply hypot_nonneg. apply abs_bounds in HQ.
  pose proof L_vin3.pi_315 as P3.
  assert (AT : forall y x, double y -> double x -> double (l_atan2 lk y x) /\ Rabs (l_atan2 lk y x - atan2 y x) <= 8 * uu) by (intros y x Y X; split; [apply M|destruct M as (_ & _ & _ & _ & _ & _ & Q & _); now apply Q]).
  split; [|split].
  - intros Hp Hc. assert (P1 : 0 < p) by (apply Rmult_lt_0_compat; lra). destruct (AT e' n' A1 B1) as (V1 & V2). pose proof (atan2_7 e' n') as V3. apply abs_bounds in V2 as V2'. apply abs_bounds in V3. set (v := l_atan2 lk e' n') in *. set (w := atan2 e' n') in *.
    destruct (mod_turn v V1 ltac:(apply Rabs_le; lra)) as (W1 & W2 & _ & k2 & W3). pose proof tau_fl as TF. apply abs_bounds in TF. set (a := fl_mod v _) in *. pose proof (rad_err lk deg a M W1 ltac:(rewrite Rabs_pos_eq; lra)) as W4. rewrite (Rabs_pos_eq a) in W4 by lra.
    destruct (L_lox.wrapdist_spec (w - t)) as (Z1 & (k1 & Z2) & _). rewrite Z2 in Z1. replace (w - t - IZR k1 * (2 * PI)) with (w - (t + IZR k1 * (2 * PI))) in Z1 by ring.
    pose proof (polar_angle p (t + IZR k1 * (2 * PI)) n' e' (9639 / 10000 * p) P1 ltac:(lra)) as PA. rewrite cos_period_Z, sin_period_Z in PA. rewrite (hypot_comm n' e') in PA. fold r0 w in PA.
    specialize (PA ltac:(clear - RQ Hp P1; assert (929285 / 1000000 * p <= r0) by lra; nra) ltac:(lra) ltac:(lra)).
    exists (k2 + k1)%Z. rewrite plus_IZR. set (am := as_rad deg _) in *. replace (am - t - (IZR k2 + IZR k1) * (2 * PI)) with ((am - a) + ((a - v - IZR k2 * (2 * PI)) + ((v - w) + (w - (t + IZR k1 * (2 * PI)))))) by ring.
    assert (Y : 1001 / 1000 * (hypot (n' - p * cos t) (e' - p * sin t) / (9639 / 10000 * p)) <= 3 / 2 * (d / p)).
    { apply Rmult_le_reg_r with p; [exact P1|]. replace (3 / 2 * (d / p) * p) with (3 / 2 * d) by (field; lra). replace (1001 / 1000 * (hypot (n' - p * cos t) (e' - p * sin t) / (9639 / 10000 * p)) * p) with (1001 / 1000 * 10000 / 9639 * hypot (n' - p * cos t) (e' - p * sin t)) by (field; lra). lra. }
    assert (a * uu <= 631 / 100 * uu) by (apply Rmult_le_compat_r; lra).
    apply Rle_trans with (1 := Rabs_triang _ _). pose proof (Rabs_triang (a - v - IZR k2 * (2 * PI)) ((v - w) + (w - (t + IZR k1 * (2 * PI))))). pose proof (Rabs_triang (v - w) (w - (t + IZR k1 * (2 * PI)))). lra.
  - intros Hp. destruct (AT u' r C1 DR) as (V1 & V2). pose proof (atan2_right u' r RP) as V3. apply abs_bounds in V2 as V2'. set (v := l_atan2 lk u' r) in *. set (w := atan2 u' r) in *.
    assert (VB : Rabs v <= 158 / 100) by (apply Rabs_le; lra). pose proof (rad_err lk deg v M V1 ltac:(lra)) as W4. assert (Rabs v * uu <= 158 / 100 * uu) by (apply Rmult_le_compat_r; lra).
    assert (HH : H2 <= 17322 / 10000 * d + 43 / 10 * (uu * D)). { clear - Q2 RQ PD Hp U0 UD UDD. assert (r0 <= D + 1 / 20 * D * (3 / 2)) by lra. assert (uu * r0 <= uu * (D + 1 / 20 * D * (3 / 2))) by (apply Rmult_le_compat_l; lra). lra. }
    apply abs_bounds in Hq. pose proof (polar_angle D q r u' (9556 / 10000 * D) HD ltac:(lra)) as PA. fold p w H2 in PA.
    specialize (PA ltac:(clear - HQ HH Hp HD UDD; assert (9132 / 10000 * D <= hypot r u') by lra; nra) ltac:(lra) ltac:(apply Rabs_le; lra)).
    set (am := as_rad deg _) in *. replace (am - q) with ((am - v) + ((v - w) + (w - q))) by ring.
    assert (Y : 1001 / 1000 * (H2 / (9556 / 10000 * D)) <= 2 * (d / D) + 451 / 100 * uu).
    { apply Rmult_le_reg_r with D; [exact HD|]. replace ((2 * (d / D) + 451 / 100 * uu) * D) with (2 * d + 451 / 100 * (uu * D)) by (field; lra). replace (1001 / 1000 * (H2 / (9556 / 10000 * D)) * D) with (1001 / 1000 * 10000 / 9556 * H2) by (field; lra). lra. }
    apply Rle_trans with (1 := Rabs_triang _ _). pose proof (Rabs_triang (v - w) (w - q)). lra.
  - set (rf := l_hypot (l_base lk) r u') in *. clear - L2 HQ Q2 UR2 UD UDD U0 U1 HD Hd H20. set (g := hypot r u') in *. clearbody g. assert (uu * g <= uu * (D + H2)) by (apply Rmult_le_compat_l; lra). assert (uu * H2 <= / 1000000000000000 * H2) by (apply Rmult_le_compat_r; lra). apply abs_bounds in L2. apply Rabs_le. lra.
Qed.
(** enu2aer of an untrimmed displacement: 5e-15 rad, 2e-15 rad, 1e-15 of the range. *)
Theorem C95_enu2aer : forall lk e n u deg D t q, libm2_ok lk -> double e -> double n -> double u ->
  (forall v, v = e \/ v = n \/ v = u -> v = 0 \/ 11 / 10000 <= Rabs v <= 10 ^ 20) ->
  0 < D -> Rabs q <= PI / 2 -> (e, n, u) = look D t q ->
  let '(azf, elf, rf) := fl_enu2aer lk e n u deg in
  (0 < cos q -> exists k : Z, Rabs (as_rad deg azf - t - IZR k * (2 * PI)) <= 42 * uu) /\
  Rabs (as_rad deg elf - q) <= 18 * uu /\ Rabs (rf - D) <= 9 * uu * D.
Proof.
  intros lk e n u deg D t q M De Dn Du H HD Hq E. assert (T : forall v, double v -> v = 0 \/ 11 / 10000 <= Rabs v <= 10 ^ 20 -> fl_trim v = v /\ Rabs v <= 10 ^ 20).
  { intros v Dv [Z|Z]; [subst; split; [|rewrite Rabs_R0; lra]; unfold fl_trim; destruct (Rlt_dec _ _); reflexivity|split; [apply (trim_fl v Dv); lra|lra]]. }
  destruct (T e De (H e ltac:(tauto))) as (T1 & B1). destruct (T n Dn (H n ltac:(tauto))) as (T2 & B2). destruct (T u Du (H u ltac:(tauto))) as (T3 & B3).
  pose proof (C95_direction lk e n u deg 0 D t q M De Dn Du B1 B2 B3 ltac:(lra) HD Hq) as A. rewrite T1, T2, T3, <- E in A. assert (N : near 0 (e, n, u) (e, n, u)) by (unfold near; rewrite !Rminus_diag_eq, Rabs_R0 by reflexivity; lra). specialize (A N).
  destruct (fl_enu2aer lk e n u deg) as [[azf elf] rf]. destruct A as (A1 & A2 & A3). replace (0 / D) with 0 in A2 by (unfold Rdiv; ring). split; [|split; [lra|lra]].
  intros Hc. assert (0 <= D * cos q) by (apply Rmult_le_pos; lra). destruct (A1 ltac:(lra) Hc) as (k & K). exists k. replace (0 / (D * cos q)) with 0 in K by (unfold Rdiv; ring). lra.
Qed.
(** geodetic2aer on the Earth: with the target at azimuth t, elevation q and distance D of the
    observer, 1.5 micrometres across the line of sight (1.6 mm if a coordinate of the target
    in the local frame is below 1.1 mm and so may be trimmed). *)
Theorem C95_geodetic2aer : forall lk lat lon h lat0 lon0 h0 deg D t q, libm2_ok lk -> site_ok lat lon h deg -> site_ok lat0 lon0 h0 deg -> Rabs h <= 1000000 -> Rabs h0 <= 1000000 ->
  0 < D -> Rabs q <= PI / 2 -> geodetic2enu lat lon h lat0 lon0 h0 None deg = look D t q ->
  forall d, (d = 1002 / 10 ^ 6 \/ d = / 10 ^ 6 /\ let '(e, n, u) := look D t q in 11 / 10000 <= Rabs e /\ 11 / 10000 <= Rabs n /\ 11 / 10000 <= Rabs u) ->
  let '(azf, elf, rf) := fl_geodetic2aer lk lat lon h lat0 lon0 h0 None deg in
  (20 * d <= D * cos q -> exists k : Z, Rabs (as_rad deg azf - t - IZR k * (2 * PI)) <= 42 * uu + 3 / 2 * (d / (D * cos q))) /\
  (20 * d <= D -> Rabs (as_rad deg elf - q) <= 18 * uu + 2 * (d / D)) /\
  Rabs (rf - D) <= 9 * uu * D + 2 * d.
Proof.
  intros lk lat lon h lat0 lon0 h0 deg D t q M S S0 H H0 HD Hq E d Hd. pose proof (proj2 (C92_earth (l_base lk) lat lon h lat0 lon0 h0 deg (proj1 M) S S0 H H0)) as W. pose proof (geodetic2enu_ap (l_base lk) lat lon h lat0 lon0 h0 None deg (proj1 M) wgs_axes S S0) as G.
  unfold fl_geodetic2aer. assert (DD : let '(a, b, c) := fl_geodetic2enu (l_base lk) lat lon h lat0 lon0 h0 None deg in double a /\ double b /\ double c).
  { unfold fl_geodetic2enu. destruct (fl_geodetic2ecef (l_base lk) lat lon h None deg) as [[a b] c]. destruct (fl_geodetic2ecef (l_base lk) lat0 lon0 h0 None deg) as [[a' b'] c']. unfold fl_uvw2enu. cbv zeta. refine (conj _ (conj _ _)); apply rnd_double. }
  rewrite E in W, G. destruct (fl_geodetic2enu (l_base lk) lat lon h lat0 lon0 h0 None deg) as [[ef nf] pf]. destruct DD as (D1 & D2 & D3). destruct (look D t q) as [[e n] p] eqn:L.
  destruct W as (W1 & W2 & W3). destruct G as ((_ & G1 & _) & (_ & G2 & _) & (_ & G3 & _)). unfold reach in *. cbn [ell_a] in *.
  assert (X : forall vf v, Rabs (vf - v) < 1 / 1000000 -> Rabs v <= 3 * (10 / 9 * 6378137 + Rabs h + (10 / 9 * 6378137 + Rabs h0)) -> Rabs vf <= 10 ^ 20).
  { intros vf v A B. replace vf with ((vf - v) + v) by ring. apply Rle_trans with (1 := Rabs_triang _ _). lra. }
  assert (Y : forall vf v, double vf -> Rabs (vf - v) < 1 / 1000000 -> (d = 1002 / 10 ^ 6 \/ d = / 10 ^ 6 /\ 11 / 10000 <= Rabs v) -> Rabs (fl_trim vf - v) <= d).
  { intros vf v DV A [B|(B & C)].
    - destruct (trim_fl vf DV) as (_ & _ & T & _). replace (fl_trim vf - v) with ((fl_trim vf - vf) + (vf - v)) by ring. apply Rle_trans with (1 := Rabs_triang _ _). lra.
    - destruct (trim_fl vf DV) as (_ & _ & _ & T & _). rewrite T; [lra|]. pose proof (Rabs_triang_inv v (v - vf)) as Q. replace (v - (v - vf)) with vf in Q by ring. rewrite (Rabs_minus_sym v vf) in Q. lra. }
  assert (N : near d (fl_trim ef, fl_trim nf, fl_trim pf) (e, n, p)) by (refine (conj _ (conj _ _)); apply Y; try assumption; destruct Hd as [Hd|(Hd & F1 & F2 & F3)]; [now left|right; now split|now left|right; now split|now left|right; now split]).
  assert (D0 : 0 < d) by (destruct Hd as [->|(-> & _)]; lra). rewrite <- L in N.
  pose proof (C95_direction lk ef nf pf deg d D t q M D1 D2 D3 (X _ _ W1 G1) (X _ _ W2 G2) (X _ _ W3 G3) ltac:(lra) HD Hq N) as A. destruct (fl_enu2aer lk ef nf pf deg) as [[azf elf] rf]. destruct A as (A1 & A2 & A3).
  split; [|split; [exact A2|exact A3]]. intros Q. apply A1; [exact Q|]. apply Rnot_le_lt. intros Z. assert (D * cos q <= D * 0) by (apply Rmult_le_compat_l; lra). lra.
Qed.
(** A hundred kilometres away the angles are good to 31 and 21 nanoradians, trimmed or not. *)
Example C95_distant : forall lk lat lon h lat0 lon0 h0 deg D t q, libm2_ok lk -> site_ok lat lon h deg -> site_ok lat0 lon0 h0 deg -> Rabs h <= 1000000 -> Rabs h0 <= 1000000 ->
  100000 <= D -> Rabs q <= PI / 3 -> geodetic2enu lat lon h lat0 lon0 h0 None deg = look D t q ->
  let '(azf, elf, rf) := fl_geodetic2aer lk lat lon h lat0 lon0 h0 None deg in
  (exists k : Z, Rabs (as_rad deg azf - t - IZR k * (2 * PI)) <= 31 / 10 ^ 9) /\ Rabs (as_rad deg elf - q) <= 21 / 10 ^ 9.
Proof.
  intros lk lat lon h lat0 lon0 h0 deg D t q M S S0 H H0 HD Hq E. pose proof PI_RGT_0 as P0. pose proof (C95_geodetic2aer lk lat lon h lat0 lon0 h0 deg D t q M S S0 H H0 ltac:(lra) ltac:(lra) E (1002 / 10 ^ 6) ltac:(now left)) as A.
  destruct (fl_geodetic2aer lk lat lon h lat0 lon0 h0 None deg) as [[azf elf] rf]. destruct A as (A1 & A2 & _). assert (C : 1 / 2 <= cos q). { rewrite <- cos_PI3. apply abs_bounds in Hq. destruct (Rle_lt_dec 0 q); [apply cos_decr_1; lra|rewrite <- (cos_neg q); apply cos_decr_1; lra]. }
  assert (DC : 50000 <= D * cos q) by (replace 50000 with (100000 * (1 / 2)) by lra; apply Rmult_le_compat; lra). pose proof uu_small as U1.
  assert (I : forall a b, 0 < b -> b <= a -> 1002 / 10 ^ 6 / a <= 1002 / 10 ^ 6 / b) by (intros a b B AB; unfold Rdiv at 1 3; apply Rmult_le_compat_l; [lra|]; apply Rinv_le_contravar; lra).
  pose proof (I (D * cos q) 50000 ltac:(lra) DC). pose proof (I D 100000 ltac:(lra) HD). split; [|specialize (A2 ltac:(lra)); lra]. destruct (A1 ltac:(lra)) as (k & K). exists k. lra.
Qed.
(** The azimuth lies between 0 and the double nearest a full turn, which it can equal: in
    floating point "from 0 up to, but not including, a full turn" is false. *)
Theorem C95_azimuth_range : forall lk e n u, libm2_ok lk -> double e -> double n ->
  let '(azf, _, _) := fl_enu2aer lk e n u false in 0 <= azf <= rnd (2 * PI).
Proof.
  intros lk e n u M De Dn. unfold fl_enu2aer. cbv zeta. destruct (trim_fl e De) as (A1 & _). destruct (trim_fl n Dn) as (B1 & _). set (e' := fl_trim e) in *. set (n' := fl_trim n) in *.
  assert (V : Rabs (l_atan2 lk e' n') <= 32 / 10). { destruct M as (_ & _ & _ & _ & _ & _ & Q & _). specialize (Q n' e' B1 A1). pose proof (atan2_7 e' n') as A7. pose proof uu_small. replace (l_atan2 lk e' n') with ((l_atan2 lk e' n' - atan2 e' n') + atan2 e' n') by ring. apply Rle_trans with (1 := Rabs_triang _ _). lra. }
  apply (mod_turn (l_atan2 lk e' n')); [apply M|exact V].
Qed.
Lemma gap_below m : double m -> 4 < m -> forall x, - / 4503599627370496 <= x <= 0 -> rnd (x + m) = m.
Proof.
  intros D H x Hx. assert (V : Valid_exp fexp64) by (apply FLT_exp_valid; reflexivity). assert (D4 : double 4) by (apply (double_int 4); reflexivity).
  assert (P : 4 <= pred radix2 fexp64 m) by (apply pred_ge_gt; try assumption). assert (S : succ radix2 fexp64 (pred radix2 fexp64 m) = m) by (apply succ_pred; [exact V|exact D]). rewrite succ_eq_pos in S by lra.
  assert (U : ulp radix2 fexp64 4 <= ulp radix2 fexp64 (pred radix2 fexp64 m)). { apply ulp_le; [exact V|apply FLT_exp_monotone|]. rewrite !Rabs_pos_eq by lra. exact P. }
  assert (U4 : ulp radix2 fexp64 4 = / 1125899906842624). { change 4 with (bpow radix2 2). rewrite ulp_bpow. reflexivity. }
  apply Rle_antisym.
  - unfold rnd. rewrite <- (rnd_id m D) at 2. apply round_le; [exact V|apply valid_rnd_N|lra].
  - unfold rnd. apply (round_N_ge_midp radix2 fexp64); [exact D|]. rewrite U4 in U. lra.
Qed.
Theorem C95_azimuth_below_full_turn_refuted : exists lk e n u, libm2_ok lk /\ double e /\ double n /\ double u /\
  let '(azf, _, _) := fl_enu2aer lk e n u false in azf = rnd (2 * PI).
Proof.
  exists libm2_rounding, (-1), 4503599627370496, 0. split; [exact libm2_rounding_ok|]. assert (D1 : double (-1)) by (apply (double_int (-1)); reflexivity). assert (D2 : double 4503599627370496) by (apply (double_int 4503599627370496); reflexivity).
  split; [exact D1|]. split; [exact D2|]. split; [apply (double_int 0); reflexivity|]. unfold fl_enu2aer. cbv zeta. pose proof trim_rnd as TR.
  assert (T1 : fl_trim (-1) = -1) by (unfold fl_trim; rewrite Rabs_left by lra; destruct (Rlt_dec _ _); [lra|reflexivity]). assert (T2 : fl_trim 4503599627370496 = 4503599627370496) by (unfold fl_trim; rewrite Rabs_pos_eq by lra; destruct (Rlt_dec _ _); [lra|reflexivity]). rewrite T1, T2.
  cbn [libm2_rounding l_atan2]. rewrite atan2_pos by lra. set (t := / 4503599627370496). replace (-1 / 4503599627370496) with (- t) by (unfold t; lra). rewrite atan_opp.
  assert (B : t / 2 <= atan t <= t).
  { split; [|apply L_latitude4.atan_upper; unfold t; lra]. apply Rle_trans with (2 := L_latitude4.atan_lower t ltac:(unfold t; lra)). unfold t. lra. }
  assert (DT : forall e, (-1074 <= e)%Z -> double (bpow radix2 e)) by (intros e He; apply generic_format_bpow; unfold fexp64, FLT_exp; lia).
  assert (DO : forall v, double v -> double (- v)) by (intros v; apply generic_format_opp). assert (T52 : bpow radix2 (-52) = t) by reflexivity. assert (T53 : bpow radix2 (-53) = t / 2) by (unfold t; simpl; lra).
  pose proof (DO _ (DT (-52)%Z ltac:(lia))) as E1. pose proof (DO _ (DT (-53)%Z ltac:(lia))) as E2. rewrite T52 in E1. rewrite T53 in E2.
  assert (MO : forall a b, a <= b -> rnd a <= rnd b) by (intros a b Q; apply round_le; [apply FLT_exp_valid; reflexivity|apply valid_rnd_N|exact Q]).
  pose proof (MO (- t) (- atan t) ltac:(lra)) as X1. pose proof (MO (- atan t) (- (t / 2)) ltac:(lra)) as X2. rewrite (rnd_id _ E1) in X1. rewrite (rnd_id _ E2) in X2. set (x := rnd (- atan t)) in *.
  assert (TP : 0 < t < / 1000) by (unfold t; lra). destruct (mod_turn x (rnd_double _) ltac:(apply Rabs_le; lra)) as (_ & _ & Q & _). rewrite Q by lra. apply gap_below; [apply rnd_double| |fold t; lra].
  pose proof tau_fl as TF. apply abs_bounds in TF. pose proof uu_small. pose proof L_vin3.pi_31. lra.
Qed.
(** Every displacement has look angles, so the theorems speak about all of them. *)
Theorem C95_every_direction : forall e n u, 0 < vnorm (e, n, u) ->
  (e, n, u) = look (vnorm (e, n, u)) (atan2 e n) (atan2 u (hypot e n)) /\ Rabs (atan2 u (hypot e n)) <= PI / 2.
Proof.
  intros e n u H. rewrite <- hyp2_norm. unfold look. rewrite hypot_cos_atan2, hypot_sin_atan2. rewrite (hypot_comm e n), hypot_cos_atan2, hypot_sin_atan2. split; [reflexivity|]. pose proof (atan2_right u (hypot n e) (hypot_nonneg _ _)). apply Rabs_le. lra.
Qed.
Example C95_nonvacuous : double 3000 /\ double 4000 /\ double 500 /\ exists D t q, 0 < D /\ Rabs q <= PI / 2 /\ 0 < cos q /\ (3000, 4000, 500) = look D t q.
Proof.
  split; [apply (double_int 3000); reflexivity|]. split; [apply (double_int 4000); reflexivity|]. split; [apply (double_int 500); reflexivity|].
  assert (V : 0 < vnorm (3000, 4000, 500)) by (unfold vnorm, vdot; apply sqrt_lt_R0; lra). destruct (C95_every_direction 3000 4000 500 V) as (E & Q). exists (vnorm (3000, 4000, 500)), (atan2 3000 4000), (atan2 500 (hypot 3000 4000)). split; [exact V|]. split; [exact Q|]. split; [|exact E].
  assert (HP : 0 < hypot 3000 4000) by (apply sqrt_lt_R0; lra). rewrite atan2_pos by exact HP. pose proof (atan_bound (500 / hypot 3000 4000)). apply cos_gt_0; lra.
Qed.
