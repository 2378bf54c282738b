(** Property C99: Greenwich mean sidereal time in binary64. *)
From Coq Require Import Reals ZArith Lra Lia Psatz.
From Flocq Require Import Core.
From Verif Require Import PyMath M_time M_earth M_sidereal M_float M_floatenu M_floattime Spec_time Spec_float P_float L_float L_floathav L_floatpi P_time P_roundtime.
From Verif Require L_earth.
Open Scope R_scope.
#[local] Instance prec53 : Prec_gt_0 53 := eq_refl.
#[local] Instance vexp : Valid_exp fexp64 := FLT_exp_valid (-1074) 53.

(** Assumed of C's pow(x, 2) and pow(x, 3) for |x| <= 100: within 2 half-ulps of 1 (relative), but for underflow. *)
Definition pow_ok (sq cube : R -> R) : Prop := forall x, double x -> Rabs x <= 100 ->
  Rabs (sq x - x ^ 2) <= 2 * uu * Rabs (x ^ 2) + / 10 ^ 300 /\ Rabs (cube x - x ^ 3) <= 2 * uu * Rabs (x ^ 3) + / 10 ^ 300.

Lemma ap_trade k B k' B' xf x : ap k B xf x -> 0 <= k' <= 10000 -> B <= B' -> k * B <= k' * B' -> ap k' B' xf x.
Proof. intros (K & H1 & H2) K' HB HK. split; [exact K'|]. split; [lra|]. pose proof uu_pos. replace (k' * uu * B') with (uu * (k' * B')) by ring. replace (k * uu * B) with (uu * (k * B)) in H2 by ring. apply Rle_trans with (1 := H2). apply Rmult_le_compat_l; lra. Qed.
Lemma ap_divc k B c xf x : 0 < c -> ap k B xf x -> tny <= B / c -> k + 1 + / 1000 <= 10000 -> ap (k + 1 + / 1000) (B / c) (fl_div xf c) (x / c).
Proof.
  intros C (K & H1 & H2) HB Hk. unfold fl_div. apply ap_rnd; [|exact HB|exact Hk]. assert (IC : 0 < / c) by now apply Rinv_0_lt_compat. assert (AC : Rabs (/ c) = / c) by (apply Rabs_pos_eq; lra). split; [exact K|]. unfold Rdiv. split.
  - rewrite Rabs_mult, AC. apply Rmult_le_compat_r; lra.
  - replace (xf * / c - x * / c) with ((xf - x) * / c) by ring. rewrite Rabs_mult, AC. rewrite <- Rmult_assoc. apply Rmult_le_compat_r; lra.
Qed.
Lemma const_ap c B : Rabs c <= B -> 1 / 100000000 <= B -> ap (1001 / 1000) B (rnd c) c.
Proof.
  intros H HB. assert (T : tny <= B). { apply Rle_trans with (bpow radix2 (-27)); [apply bpow_le; lia|change (bpow radix2 (-27)) with (/ 134217728); lra]. } apply ap_weaken with (0 + 1 + / 1000) B; [|lra|lra]. apply ap_rnd; [apply ap_exact; exact H|exact T|lra].
Qed.
Lemma tau_err : Rabs (fl_tau - 2 * PI) <= 4 * uu.
Proof. unfold fl_tau. pose proof (rnd_pow 3 (2 * PI) ltac:(lia)) as P. change (bpow radix2 3) with 8 in P. pose proof PI_4. pose proof PI_RGT_0. specialize (P ltac:(rewrite Rabs_pos_eq; lra)). lra. Qed.
Lemma tny_1 B : 1 / 100000000 <= B -> tny <= B.
Proof. intros H. apply Rle_trans with (bpow radix2 (-27)); [apply bpow_le; lia|change (bpow radix2 (-27)) with (/ 134217728); lra]. Qed.

Section Sid.
Variables (sq cube : R -> R) (jd T : R).
Hypothesis P : pow_ok sq cube. Hypothesis HT : 1 <= T <= 81. Hypothesis HJ : Rabs (jd - 2451545) <= 36525 * T.
Let t := (jd - 2451545) / 36525.
Let tf := fl_julian_centuries jd.
Lemma t_ap : ap (2002 / 1000) T tf t.
Proof.
  assert (A : ap (1001 / 1000) (36525 * T) (fl_sub jd 2451545) (jd - 2451545)) by (unfold fl_sub; apply const_ap; [exact HJ|lra]).
  apply (ap_divc _ _ 36525) in A; [|lra|apply tny_1; lra|lra]. replace (36525 * T / 36525) with T in A by field. unfold tf, fl_julian_centuries, t. apply ap_weaken with (1 := A); lra.
Qed.
Lemma tf_d : double tf. Proof. apply rnd_double. Qed.
Lemma tf_b : Rabs tf <= 10001 / 10000 * T.
Proof. destruct t_ap as (_ & A & B). pose proof uu_small. pose proof uu_pos. apply Rabs_le_inv in A, B. apply Rabs_le. assert (0 <= uu * T <= / 1000000000 * T) by nra. lra. Qed.
Lemma t2_ap : ap 7 (T ^ 2) (sq tf) (t ^ 2).
Proof.
  destruct t_ap as (_ & A & B). pose proof tf_b as FB. destruct (P tf tf_d ltac:(lra)) as [S _]. pose proof uu_pos as U. pose proof uu_small as US. pose proof (Rabs_pos t). pose proof (Rabs_pos tf).
  split; [lra|]. split; [rewrite <- RPow_abs; apply pow_incr; lra|].
  assert (E : Rabs (tf ^ 2 - t ^ 2) <= (2002 / 1000 * uu * T) * (21 / 10 * T)). { replace (tf ^ 2 - t ^ 2) with ((tf - t) * (tf + t)) by ring. rewrite Rabs_mult. apply Rmult_le_compat; try apply Rabs_pos; [exact B|]. apply Rle_trans with (1 := Rabs_triang _ _). lra. }
  assert (F : Rabs (tf ^ 2) <= 101 / 100 * T ^ 2). { rewrite <- RPow_abs. apply Rle_trans with ((10001 / 10000 * T) ^ 2); [apply pow_incr; lra|]. rewrite Rpow_mult_distr. apply Rmult_le_compat_r; [apply pow_le; lra|lra]. }
  assert (G : / 10 ^ 300 <= / 100 * uu). { apply Rle_trans with (/ 10 ^ 20); [apply Rinv_le_contravar; [apply pow_lt; lra|apply Rle_pow; [lra|lia]]|]. unfold uu. lra. }
  set (e := / 10 ^ 300) in *. clearbody e. set (W := uu * T ^ 2). assert (HW : uu <= W). { unfold W. assert (1 <= T ^ 2) by (replace 1 with (1 ^ 2) by ring; apply pow_incr; lra). nra. }
  assert (F2 : 2 * uu * Rabs (tf ^ 2) <= 202 / 100 * W) by (unfold W; replace (202 / 100 * (uu * T ^ 2)) with (2 * uu * (101 / 100 * T ^ 2)) by field; apply Rmult_le_compat_l; lra).
  assert (E2 : Rabs (tf ^ 2 - t ^ 2) <= 43 / 10 * W) by (apply Rle_trans with (1 := E); replace (2002 / 1000 * uu * T * (21 / 10 * T)) with (2002 / 1000 * (21 / 10) * W) by (unfold W; ring); lra).
  replace (7 * uu * T ^ 2) with (7 * W) by (unfold W; ring). replace (sq tf - t ^ 2) with ((sq tf - tf ^ 2) + (tf ^ 2 - t ^ 2)) by ring. apply Rle_trans with (1 := Rabs_triang _ _). lra.
Qed.
Lemma t3_ap : ap 9 (T ^ 3) (cube tf) (t ^ 3).
Proof.
  destruct t_ap as (_ & A & B). pose proof tf_b as FB. destruct (P tf tf_d ltac:(lra)) as [_ S]. pose proof uu_pos as U. pose proof uu_small as US. pose proof (Rabs_pos t). pose proof (Rabs_pos tf).
  split; [lra|]. split; [rewrite <- RPow_abs; apply pow_incr; lra|].
  assert (E0 : Rabs (tf ^ 2 + tf * t + t ^ 2) <= 31 / 10 * T ^ 2). { apply Rle_trans with (1 := Rabs_triang _ _). assert (E1 := Rabs_triang (tf ^ 2) (tf * t)). rewrite Rabs_mult, <- !RPow_abs in *. nra. }
  assert (E : Rabs (tf ^ 3 - t ^ 3) <= (2002 / 1000 * uu * T) * (31 / 10 * T ^ 2)). { replace (tf ^ 3 - t ^ 3) with ((tf - t) * (tf ^ 2 + tf * t + t ^ 2)) by ring. rewrite Rabs_mult. apply Rmult_le_compat; try apply Rabs_pos; assumption. }
  assert (F : Rabs (tf ^ 3) <= 101 / 100 * T ^ 3). { rewrite <- RPow_abs. apply Rle_trans with ((10001 / 10000 * T) ^ 3); [apply pow_incr; lra|]. rewrite Rpow_mult_distr. apply Rmult_le_compat_r; [apply pow_le; lra|lra]. }
  assert (G : / 10 ^ 300 <= / 100 * uu). { apply Rle_trans with (/ 10 ^ 20); [apply Rinv_le_contravar; [apply pow_lt; lra|apply Rle_pow; [lra|lia]]|]. unfold uu. lra. }
  set (e := / 10 ^ 300) in *. clearbody e. set (W := uu * T ^ 3). assert (HW : uu <= W). { unfold W. assert (1 <= T ^ 3) by (replace 1 with (1 ^ 3) by ring; apply pow_incr; lra). nra. }
  assert (F2 : 2 * uu * Rabs (tf ^ 3) <= 202 / 100 * W) by (unfold W; replace (202 / 100 * (uu * T ^ 3)) with (2 * uu * (101 / 100 * T ^ 3)) by field; apply Rmult_le_compat_l; lra).
  assert (E2 : Rabs (tf ^ 3 - t ^ 3) <= 63 / 10 * W) by (apply Rle_trans with (1 := E); replace (2002 / 1000 * uu * T * (31 / 10 * T ^ 2)) with (2002 / 1000 * (31 / 10) * W) by (unfold W; ring); lra).
  replace (9 * uu * T ^ 3) with (9 * W) by (unfold W; ring). replace (cube tf - t ^ 3) with ((cube tf - tf ^ 3) + (tf ^ 3 - t ^ 3)) by ring. apply Rle_trans with (1 := Rabs_triang _ _). lra.
Qed.
(** The argument of the final remainder. *)
Let gf := fl_div (fl_mul (fl_sub (fl_add (fl_add (rnd 67310.54841) (fl_mul (fl_add (rnd 3155760000) (rnd 8640184.812866)) tf)) (fl_mul (rnd 0.093104) (sq tf))) (fl_mul (rnd 0.0000062) (cube tf))) fl_tau) 86400.
Let g := (67310.54841 + (876600 * 3600 + 8640184.812866) * t + 0.093104 * t ^ 2 - 0.0000062 * t ^ 3) * (2 * PI) / 86400.
Lemma g_ap : Rabs (gf - g) <= 2.9 / 10 ^ 10 * T /\ Rabs g <= 230130 * T.
Proof.
  assert (T2 : T ^ 2 <= 81 * T) by nra. assert (T3 : T ^ 3 <= 6561 * T) by nra. assert (T2' : 1 <= T ^ 2) by nra. assert (T3' : 1 <= T ^ 3) by nra.
  assert (A1 : ap 2.003 3164400185 (fl_add (rnd 3155760000) (rnd 8640184.812866)) (3155760000 + 8640184.812866)).
  { apply ap_weaken with (1.001 + 1 + / 1000) (3155760000 + 8640185); [|lra|lra]. apply ap_add with 1.001 1.001; [apply ap_weaken with (1001 / 1000) 3155760000; [apply const_ap; [rewrite Rabs_pos_eq; lra|lra]|lra|lra]|apply ap_weaken with (1001 / 1000) 8640185; [apply const_ap; [rewrite Rabs_pos_eq; lra|lra]|lra|lra]|lra|lra|apply tny_1; lra|lra]. }
  pose proof (ap_mul _ _ _ _ _ _ _ _ A1 t_ap ltac:(apply tny_1; lra) ltac:(lra)) as A2.
  assert (A0 : ap 1.001 67311 (rnd 67310.54841) 67310.54841) by (apply ap_weaken with (1001 / 1000) 67311; [apply const_ap; [rewrite Rabs_pos_eq; lra|lra]|lra|lra]).
  pose proof (ap_add 5.02 _ _ _ _ _ _ _ _ A0 A2 ltac:(lra) ltac:(lra) ltac:(apply tny_1; lra) ltac:(lra)) as A3.
  assert (C2 : ap (1001 / 1000) 0.0932 (rnd 0.093104) 0.093104) by (apply const_ap; [rewrite Rabs_pos_eq; lra|lra]).
  pose proof (ap_mul _ _ _ _ _ _ _ _ C2 t2_ap ltac:(apply tny_1; lra) ltac:(lra)) as A4.
  assert (A4' : ap 1 (100 * T) (fl_mul (rnd 0.093104) (sq tf)) (0.093104 * t ^ 2)) by (apply ap_trade with (1 := A4); lra).
  pose proof (ap_add 6.03 _ _ _ _ _ _ _ _ A3 A4' ltac:(lra) ltac:(lra) ltac:(apply tny_1; lra) ltac:(lra)) as A5.
  assert (C3 : ap (1001 / 1000) 0.0000063 (rnd 0.0000062) 0.0000062) by (apply const_ap; [rewrite Rabs_pos_eq; lra|lra]).
  pose proof (ap_mul _ _ _ _ _ _ _ _ C3 t3_ap ltac:(apply tny_1; lra) ltac:(lra)) as A6.
  assert (A6' : ap 1 (100 * T) (fl_mul (rnd 0.0000062) (cube tf)) (0.0000062 * t ^ 3)) by (apply ap_trade with (1 := A6); lra).
  pose proof (ap_sub 7.04 _ _ _ _ _ _ _ _ A5 A6' ltac:(lra) ltac:(lra) ltac:(apply tny_1; lra) ltac:(lra)) as A7.
  assert (A7' : ap 8.05 (3164467700 * T) (fl_sub (fl_add (fl_add (rnd 67310.54841) (fl_mul (fl_add (rnd 3155760000) (rnd 8640184.812866)) tf)) (fl_mul (rnd 0.093104) (sq tf))) (fl_mul (rnd 0.0000062) (cube tf))) (67310.54841 + (3155760000 + 8640184.812866) * t + 0.093104 * t ^ 2 - 0.0000062 * t ^ 3)) by (apply ap_weaken with (1 := A7); lra).
  assert (PB : Rabs (2 * PI) <= 6.2832) by (rewrite Rabs_pos_eq; [|pose proof PI_RGT_0; lra]; pose proof pi_tight as PT; unfold cpi in PT; lra).
  pose proof (ap_mul _ _ _ _ _ _ _ _ A7' (const_ap (2 * PI) 6.2832 PB ltac:(lra)) ltac:(apply tny_1; lra) ltac:(lra)) as A8.
  pose proof (ap_divc _ _ 86400 _ _ ltac:(lra) A8 ltac:(apply tny_1; lra) ltac:(lra)) as A9. fold fl_tau in A9. destruct A9 as (_ & A9 & A10).
  replace (876600 * 3600) with 3155760000 in * by lra. fold gf in A10. unfold g. replace (876600 * 3600) with 3155760000 by lra. split; [|apply Rle_trans with (1 := A9); lra]. apply Rle_trans with (1 := A10). unfold uu. lra.
Qed.

Lemma tau_pos : 6.28 < fl_tau < 6.29.
Proof. pose proof tau_err as E. apply Rabs_le_inv in E. pose proof pi_tight as PT. unfold cpi in PT. pose proof uu_small. lra. Qed.
Lemma sid_err : exists k : Z, Rabs (fl_greenwichsrt sq cube jd - greenwichsrt jd - 2 * PI * IZR k) <= 3.2 / 10 ^ 10 * T.
Proof.
  destruct g_ap as [E B]. pose proof tau_pos as TP. pose proof tau_err as TE. pose proof uu_pos as U. assert (DT : double fl_tau) by apply rnd_double. assert (DG : double gf) by apply rnd_double.
  destruct (C56_mod_value gf fl_tau DG DT ltac:(lra)) as [MV _].
  assert (FE : fl_greenwichsrt sq cube jd = rnd (py_mod gf fl_tau)) by (rewrite <- MV; reflexivity).
  assert (GE : greenwichsrt jd = py_mod g (2 * PI)) by (unfold greenwichsrt, greenwich_mean_sidereal_time, julian_centuries, g, t, tau; f_equal; lra).
  rewrite FE, GE. unfold py_mod. set (n := Int_part (gf / fl_tau)). set (n' := Int_part (g / (2 * PI))). exists (n' - n)%Z. rewrite minus_IZR.
  destruct (base_Int_part (gf / fl_tau)) as [I1 I2]. fold n in I1, I2. assert (X : gf / fl_tau * fl_tau = gf) by (field; lra). set (q := gf / fl_tau) in *.
  assert (V : 0 <= gf - fl_tau * IZR n <= fl_tau) by (split; nra).
  assert (RE : Rabs (rnd (gf - fl_tau * IZR n) - (gf - fl_tau * IZR n)) <= 4 * uu). { pose proof (rnd_pow 3 (gf - fl_tau * IZR n) ltac:(lia)) as Q. change (bpow radix2 3) with 8 in Q. specialize (Q ltac:(rewrite Rabs_pos_eq; lra)). lra. }
  apply Rabs_le_inv in E, B. 
  assert (NB : Rabs (IZR n) <= 36660 * T). { assert (GB : Rabs gf <= 230131 * T) by (apply Rabs_le; lra). assert (Rabs q <= 36650 * T). { unfold q, Rdiv. rewrite Rabs_mult, (Rabs_pos_eq (/ fl_tau)) by (left; apply Rinv_0_lt_compat; lra). apply Rle_trans with (230131 * T * / 6.28); [|lra]. apply Rmult_le_compat; [apply Rabs_pos|left; apply Rinv_0_lt_compat; lra|exact GB|apply Rinv_le_contravar; lra]. } apply Rabs_le_inv in H. apply Rabs_le. lra. }
  assert (NE : Rabs (IZR n * (fl_tau - 2 * PI)) <= 36660 * T * (4 * uu)) by (rewrite Rabs_mult; apply Rmult_le_compat; try apply Rabs_pos; assumption).
  set (v := gf - fl_tau * IZR n) in *. assert (EV : v = gf - fl_tau * IZR n) by reflexivity. clearbody v. apply Rabs_le_inv in RE, NE. assert (UT : uu * T <= 1.2 / 10 ^ 16 * T) by (unfold uu; nra). apply Rabs_le. unfold uu in *. lra.
Qed.
End Sid.
(** ** C99 *)
(** Greenwich mean sidereal time executed in binary64: within 3.2e-10 rad, per century from J2000 and at least one century, of the exact value of the
    formula, up to whole turns (the two remainders may fall on different sides of 0)... *)
Theorem C99_accuracy : forall sq cube jd, pow_ok sq cube -> Rabs (jd - 2451545) <= 81 * 36525 ->
  exists k : Z, Rabs (fl_greenwichsrt sq cube jd - greenwichsrt jd - 2 * PI * IZR k) <= 3.2 / 10 ^ 10 * Rmax 1 (Rabs (jd - 2451545) / 36525).
Proof.
  intros sq cube jd P H. pose proof (Rmax_l 1 (Rabs (jd - 2451545) / 36525)) as M1. pose proof (Rmax_r 1 (Rabs (jd - 2451545) / 36525)) as M2.
  apply sid_err; [exact P| |lra]. split; [exact M1|]. apply Rmax_lub; lra.
Qed.
(** ...and a double from 0 to math.tau included. *)
Theorem C99_range : forall sq cube jd, 0 <= fl_greenwichsrt sq cube jd <= fl_tau /\ double (fl_greenwichsrt sq cube jd).
Proof. intros sq cube jd. unfold fl_greenwichsrt. pose proof tau_pos. apply C56_mod_range; [apply rnd_double|apply rnd_double|lra]. Qed.
(** The exact formula turns by at most 6.301 rad per day. *)
Lemma sid_lipschitz j1 j2 : Rabs (j1 - 2451545) <= 81 * 36525 -> Rabs (j2 - 2451545) <= 81 * 36525 ->
  exists k : Z, Rabs (greenwichsrt j1 - greenwichsrt j2 - 2 * PI * IZR k) <= 6.301 * Rabs (j1 - j2).
Proof.
  intros H1 H2. unfold greenwichsrt, greenwich_mean_sidereal_time, julian_centuries, tau. set (t1 := (j1 - 2451545.0) / 36525.0). set (t2 := (j2 - 2451545.0) / 36525.0).
  assert (B1 : -81 <= t1 <= 81) by (unfold t1; apply Rabs_le_inv in H1; lra). assert (B2 : -81 <= t2 <= 81) by (unfold t2; apply Rabs_le_inv in H2; lra).
  unfold py_mod. set (g1 := (67310.54841 + (876600 * 3600 + 8640184.812866) * t1 + 0.093104 * t1 ^ 2 - 0.0000062 * t1 ^ 3) * (2 * PI) / 86400.0). set (g2 := (67310.54841 + (876600 * 3600 + 8640184.812866) * t2 + 0.093104 * t2 ^ 2 - 0.0000062 * t2 ^ 3) * (2 * PI) / 86400.0). exists (Int_part (g2 / (2 * PI)) - Int_part (g1 / (2 * PI)))%Z. rewrite minus_IZR.
  match goal with |- Rabs ?e <= _ => replace e with (g1 - g2) by ring end.
  assert (D : g1 - g2 = (j1 - j2) * ((3164400184.812866 + 0.093104 * (t1 + t2) - 0.0000062 * (t1 ^ 2 + t1 * t2 + t2 ^ 2)) * (2 * PI) / 86400 / 36525)).
  { replace (j1 - j2) with ((t1 - t2) * 36525) by (unfold t1, t2; lra). unfold g1, g2. clear. set (p := PI). clearbody t1 t2 p. nra. }
  rewrite D, Rabs_mult, Rmult_comm. apply Rmult_le_compat_r; [apply Rabs_pos|].
  assert (Q : 0 <= t1 ^ 2 + t1 * t2 + t2 ^ 2 <= 19683) by (split; nra). set (q := t1 ^ 2 + t1 * t2 + t2 ^ 2) in *. clearbody q. pose proof pi_tight as PT. unfold cpi in PT. assert (PI <= 3.141593) by lra. pose proof PI_RGT_0.
  assert (X : 0 <= 3164400184.812866 + 0.093104 * (t1 + t2) - 0.0000062 * q <= 3164400300) by lra. set (x := 3164400184.812866 + _ - _) in *. clearbody x.
  assert (Y : 0 <= x * (2 * PI) <= 3164400300 * 6.283186) by (split; [apply Rmult_le_pos|apply Rmult_le_compat]; lra). rewrite Rabs_pos_eq; lra.
Qed.
(** The sidereal time of a datetime's Julian date, both in binary64: the rounded date costs at most 3e-9 rad (1.5e-9 before the year 6771). *)
Theorem C99_of_datetime : forall sq cube t j jf, pow_ok sq cube -> valid_dt t -> juliandate t = Ok j -> fl_juliandate t = Ok jf ->
  exists k : Z, Rabs (fl_greenwichsrt sq cube jf - greenwichsrt j - 2 * PI * IZR k)
    <= (if Rle_dec j 4194303 then 1.5 / 10 ^ 9 else 3 / 10 ^ 9) + 3.2 / 10 ^ 10 * Rmax 1 (Rabs (j - 2451545) / 36525).
Proof.
  intros sq cube t j jf P V E F. destruct (C98_accuracy t j jf V E F) as [A1 A2].
  pose proof (L_earth.juliandate_spec t V) as S. rewrite E in S. destruct S as [[S1 S2] SJ]. rewrite L_time.first_instant_eq in S1. rewrite L_time.last_instant_eq in S2. unfold DAY_US, MAXORDINAL in *. assert (S3 : (86400000000 <= instant t <= 315538000000000000)%Z) by lia. clear S1 S2. destruct S3 as [S1 S2]. apply IZR_le in S1, S2. assert (JB : 1721425 <= j <= 5373500) by (rewrite SJ; lra).
  assert (EJ : Rabs (jf - j) <= 1 / 1000) by lra. assert (JF : Rabs (jf - 2451545) <= 81 * 36525) by (apply Rabs_le_inv in EJ; apply Rabs_le; lra). assert (JE : Rabs (j - 2451545) <= 81 * 36525) by (apply Rabs_le; lra).
  destruct (sid_lipschitz jf j JF JE) as [k1 K1]. set (T := Rmax 1 (Rabs (j - 2451545) / 36525)). pose proof (Rmax_l 1 (Rabs (j - 2451545) / 36525)) as M1. pose proof (Rmax_r 1 (Rabs (j - 2451545) / 36525)) as M2. fold T in M1, M2. assert (M3 : T <= 80.1) by (apply Rmax_lub; [lra|]; assert (Rabs (j - 2451545) <= 2921955) by (apply Rabs_le; lra); lra).
  destruct (sid_err sq cube jf (T + 1 / 10000) P ltac:(lra)) as [k2 K2].
  { replace (jf - 2451545) with ((jf - j) + (j - 2451545)) by ring. apply Rle_trans with (1 := Rabs_triang _ _). lra. }
  exists (k1 + k2)%Z. rewrite plus_IZR.
  replace (fl_greenwichsrt sq cube jf - greenwichsrt j - 2 * PI * (IZR k1 + IZR k2)) with ((fl_greenwichsrt sq cube jf - greenwichsrt jf - 2 * PI * IZR k2) + (greenwichsrt jf - greenwichsrt j - 2 * PI * IZR k1)) by ring.
  apply Rle_trans with (1 := Rabs_triang _ _). destruct (Rle_dec j 4194303) as [L|L]; [specialize (A2 L)|]; lra.
Qed.
(** The Earth rotation angle, likewise. *)
Lemma mod_turns gf g T : double gf -> 1 <= T -> Rabs gf <= 230131 * T -> exists k : Z, Rabs (fl_mod gf fl_tau - py_mod g (2 * PI) - 2 * PI * IZR k) <= Rabs (gf - g) + 146644 * uu * T.
Proof.
  intros DG HT GB. pose proof tau_pos as TP. pose proof tau_err as TE. pose proof uu_pos as U. assert (DT : double fl_tau) by apply rnd_double.
  destruct (C56_mod_value gf fl_tau DG DT ltac:(lra)) as [-> _]. unfold py_mod. set (n := Int_part (gf / fl_tau)). set (n' := Int_part (g / (2 * PI))). exists (n' - n)%Z. rewrite minus_IZR.
  destruct (base_Int_part (gf / fl_tau)) as [I1 I2]. fold n in I1, I2. assert (X : gf / fl_tau * fl_tau = gf) by (field; lra). set (q := gf / fl_tau) in *.
  assert (V : 0 <= gf - fl_tau * IZR n <= fl_tau) by (split; nra).
  assert (RE : Rabs (rnd (gf - fl_tau * IZR n) - (gf - fl_tau * IZR n)) <= 4 * uu). { pose proof (rnd_pow 3 (gf - fl_tau * IZR n) ltac:(lia)) as Q. change (bpow radix2 3) with 8 in Q. specialize (Q ltac:(rewrite Rabs_pos_eq; lra)). lra. }
  assert (NB : Rabs (IZR n) <= 36660 * T). { assert (Rabs q <= 36650 * T). { unfold q, Rdiv. rewrite Rabs_mult, (Rabs_pos_eq (/ fl_tau)) by (left; apply Rinv_0_lt_compat; lra). apply Rle_trans with (230131 * T * / 6.28); [|lra]. apply Rmult_le_compat; [apply Rabs_pos|left; apply Rinv_0_lt_compat; lra|exact GB|apply Rinv_le_contravar; lra]. } apply Rabs_le_inv in H. apply Rabs_le. lra. }
  assert (NE : Rabs (IZR n * (fl_tau - 2 * PI)) <= 36660 * T * (4 * uu)) by (rewrite Rabs_mult; apply Rmult_le_compat; try apply Rabs_pos; assumption).
  set (v := gf - fl_tau * IZR n) in *. assert (EV : v = gf - fl_tau * IZR n) by reflexivity. clearbody v.
  replace (rnd v - (g - 2 * PI * IZR n') - 2 * PI * (IZR n' - IZR n)) with ((gf - g) + ((rnd v - v) - IZR n * (fl_tau - 2 * PI))) by (rewrite EV; ring).
  apply Rle_trans with (1 := Rabs_triang _ _). apply Rplus_le_compat_l. assert (UT : uu <= uu * T) by nra. apply Rabs_le_inv in RE, NE. apply Rabs_le. lra.
Qed.
Theorem C99_earth_rotation_angle : forall jd, Rabs (jd - 2451545) <= 81 * 36525 ->
  0 <= fl_earth_rotation_angle jd <= fl_tau /\ double (fl_earth_rotation_angle jd) /\
  exists k : Z, Rabs (fl_earth_rotation_angle jd - earth_rotation_angle jd - 2 * PI * IZR k) <= 1.8 / 10 ^ 10 * Rmax 1 (Rabs (jd - 2451545) / 36525).
Proof.
  intros jd H. pose proof tau_pos as TP. assert (DT : double fl_tau) by apply rnd_double.
  set (T := Rmax 1 (Rabs (jd - 2451545) / 36525)). pose proof (Rmax_l 1 (Rabs (jd - 2451545) / 36525)) as M1. pose proof (Rmax_r 1 (Rabs (jd - 2451545) / 36525)) as M2. fold T in M1, M2. assert (HJ : Rabs (jd - 2451545) <= 36525 * T) by lra. clearbody T.
  unfold fl_earth_rotation_angle. set (gf := fl_mul fl_tau _). destruct (C56_mod_range gf fl_tau ltac:(apply rnd_double) DT ltac:(lra)) as [M3 M4]. split; [exact M3|]. split; [exact M4|].
  assert (A : ap (1001 / 1000) (36525 * T) (fl_sub jd 2451545) (jd - 2451545)) by (unfold fl_sub; apply const_ap; [exact HJ|lra]).
  assert (C2 : ap (1001 / 1000) 1.00274 (rnd 1.00273781191135448) 1.00273781191135448) by (apply const_ap; [rewrite Rabs_pos_eq; lra|lra]).
  assert (C1 : ap (1001 / 1000) 0.78 (rnd 0.7790572732640) 0.7790572732640) by (apply const_ap; [rewrite Rabs_pos_eq; lra|lra]).
  pose proof (ap_mul _ _ _ _ _ _ _ _ C2 A ltac:(apply tny_1; lra) ltac:(lra)) as A2.
  pose proof (ap_add 3.02 _ _ _ _ _ _ _ _ C1 A2 ltac:(lra) ltac:(lra) ltac:(apply tny_1; lra) ltac:(lra)) as A3.
  assert (PB : Rabs (2 * PI) <= 6.2832) by (rewrite Rabs_pos_eq; [|pose proof PI_RGT_0; lra]; pose proof pi_tight as PT; unfold cpi in PT; lra).
  pose proof (ap_mul _ _ _ _ _ _ _ _ (const_ap (2 * PI) 6.2832 PB ltac:(lra)) A3 ltac:(apply tny_1; lra) ltac:(lra)) as (_ & B & E). fold fl_tau in E. fold gf in E.
  set (g := 2 * PI * (0.7790572732640 + 1.00273781191135448 * (jd - 2451545))) in *.
  assert (GE : earth_rotation_angle jd = py_mod g (2 * PI)) by (unfold earth_rotation_angle, g, tau; f_equal; lra).
  assert (E' : Rabs (gf - g) <= 1.57 / 10 ^ 10 * T) by (apply Rle_trans with (1 := E); unfold uu; lra).
  assert (B' : Rabs gf <= 230131 * T). { replace gf with ((gf - g) + g) by ring. apply Rle_trans with (1 := Rabs_triang _ _). lra. }
  destruct (mod_turns gf g T ltac:(apply rnd_double) M1 B') as [k K]. exists k. rewrite GE. apply Rle_trans with (1 := K). unfold uu. lra.
Qed.
(** Correctly rounded powers qualify; 2024-02-29 18:00 UTC. *)
Example C99_hypotheses_met : pow_ok (fun x => rnd (x ^ 2)) (fun x => rnd (x ^ 3)) /\ Rabs (2460370.25 - 2451545) <= 81 * 36525.
Proof.
  assert (G : forall v, Rabs (rnd v - v) <= 2 * uu * Rabs v + / 10 ^ 300).
  { intros v. pose proof uu_pos. pose proof (Rabs_pos v). assert (T : uu * tny <= / 10 ^ 300). { replace uu with (bpow radix2 (-53)) by (unfold uu; cbn; lra). unfold tny. rewrite <- bpow_plus. change (-53 + -1000)%Z with (- (1053))%Z. rewrite bpow_opp. apply Rinv_le_contravar; [apply pow_lt; lra|]. rewrite <- IZR_Zpower by lia. rewrite pow_IZR. apply IZR_le. vm_compute. discriminate. }
    pose proof (rnd_err v (Rabs v + tny) ltac:(pose proof tny_pos; lra) ltac:(lra)) as E. apply Rle_trans with (1 := E). nra. }
  split; [intros x _ _; split; apply G|rewrite Rabs_pos_eq; lra].
Qed.
