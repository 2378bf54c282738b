(** The polar axis in binary64 (used by C93). *)
From Coq Require Import Reals ZArith Lra Lia Psatz.
From Flocq Require Import Core.
From Verif Require Import PyMath L_PyMath M_ellipsoid M_ecef M_float M_floatenu M_floatgeo Spec_float P_float L_float P_rounding L_float2 L_floatpi L_floatgeo.
From Verif Require L_ecefacc2 L_vin3.
Open Scope R_scope.

(** The latitude on the axis: a quarter turn, to rounding. *)
Section Pole.
Variables (lk : libm2) (M : libm2_ok lk).
Let m := l_base lk.
Variables (a b s z : R).
Hypothesis Ha : 1 <= a <= 10 ^ 30.
Hypothesis Hb : 9 / 10 * a <= b <= a.
Hypothesis Hs : s = 1 \/ s = -1.
Let B := s * (cpi / 2).
Lemma B_double : double B.
Proof. unfold B. destruct Hs as [->| ->]; [rewrite Rmult_1_l; exact half_double|]. replace (-1 * (cpi / 2)) with (- (cpi / 2)) by ring. apply generic_format_opp. exact half_double. Qed.
Lemma B_abs : Rabs B < PI / 2 /\ Rabs B <= 7.
Proof. assert (E : Rabs B = cpi / 2). { unfold B. rewrite Rabs_mult. rewrite (Rabs_pos_eq (cpi / 2)) by (unfold cpi; lra). destruct Hs as [->| ->]; [rewrite Rabs_R1|rewrite Rabs_left by lra]; ring. } rewrite E. pose proof dlt. split; [lra|unfold cpi; lra]. Qed.
Lemma B_sin : sin B = s * sin (cpi / 2) /\ cos B = cos (cpi / 2) /\ tan B = s * tan (cpi / 2).
Proof. unfold B, tan. destruct Hs as [->| ->]; [rewrite !Rmult_1_l; auto|]. replace (-1 * (cpi / 2)) with (- (cpi / 2)) by ring. rewrite sin_neg, cos_neg. split; [ring|split; [ring|unfold Rdiv; ring]]. Qed.
Lemma s_mul v : Rabs (s * v) = Rabs v. Proof. rewrite Rabs_mult. destruct Hs as [->| ->]; [rewrite Rabs_R1|rewrite (Rabs_left (-1)) by lra]; ring. Qed.
Lemma lat_pole : Rabs (l_atan lk (fl_mul (fl_div (rnd a) (rnd b)) (l_tan lk B)) - s * (PI / 2)) <= 5 * uu.
Proof.
  pose proof pole_tan as T. pose proof uu_pos as U0. pose proof uu_small as U1. pose proof B_sin as (_ & _ & TE). pose proof B_abs as (L1 & _).
  assert (KR := kap_rl a b Ha Hb). assert (KB := kap_b a b Ha Hb).
  assert (TA : Rabs (tan B) = tan (cpi / 2)) by (rewrite TE, s_mul; apply Rabs_pos_eq; lra).
  assert (TT : rl (401 / 100) (l_tan lk B) (tan B)). { split; [lra|]. destruct M as (_ & _ & _ & Q & _). apply Rle_trans with (1 := Q B B_double L1). pose proof e330 as E. set (w := / 10 ^ 300) in *. clearbody w. assert (uu * 1 <= uu * Rabs (tan B)) by (apply Rmult_le_compat_l; lra). lra. }
  set (v := a / b * tan B). assert (VA : Rabs v = a / b * tan (cpi / 2)) by (unfold v; rewrite Rabs_mult, TA, Rabs_pos_eq by lra; reflexivity).
  assert (VL : 15 / 10 * 10 ^ 16 <= Rabs v <= 4 * 10 ^ 16). { rewrite VA. set (t := tan (cpi / 2)) in *. clearbody t. set (k := a / b) in *. clearbody k. clear - T KB. split; nra. }
  assert (R1 := rl_mul _ _ _ _ _ _ KR TT ltac:(apply tny_small; fold v; lra) ltac:(lra)). set (vf := fl_mul _ _) in *. fold v in R1. destruct R1 as (_ & R1).
  assert (VF : Rabs (vf - v) <= 1 / 10 * Rabs v). { apply Rle_trans with (1 := R1). apply Rmult_le_compat_r; lra. }
  assert (SV : v = s * Rabs v) by (rewrite VA; unfold v; rewrite TE; ring).
  assert (S2 : s * s = 1) by (destruct Hs as [->| ->]; ring).
  assert (SF : 135 / 100 * 10 ^ 16 <= s * vf). { replace (s * vf) with (Rabs v + s * (vf - v)) by (rewrite SV at 2; replace (s * (vf - s * Rabs v)) with (s * vf - s * s * Rabs v) by ring; rewrite S2; ring). pose proof (s_mul (vf - v)) as Q. assert (Q2 : Rabs (s * (vf - v)) <= 1 / 10 * Rabs v) by lra. apply Rabs_le_inv in Q2. lra. }
  assert (VB : Rabs vf <= 10 ^ 200). { apply Rle_trans with (10 ^ 17); [|apply big_le; lia]. replace vf with ((vf - v) + v) by ring. apply Rle_trans with (1 := Rabs_triang _ _). lra. }
  destruct M as (_ & _ & _ & _ & Q & _). specialize (Q vf (rnd_double _) VB).
  assert (AT : Rabs (atan vf - s * (PI / 2)) <= uu).
  { assert (E : atan vf - s * (PI / 2) = s * (atan (s * vf) - PI / 2)). { destruct Hs as [->| ->]; [rewrite !Rmult_1_l; reflexivity|]. replace (-1 * vf) with (- vf) by ring. rewrite atan_opp. ring. }
    rewrite E, s_mul. set (w := s * vf) in *. clearbody w. assert (W : 0 < w) by lra. pose proof (atan_bound w) as AB. rewrite Rabs_left by lra. replace (- (atan w - PI / 2)) with (atan (/ w)) by (rewrite atan_inv by exact W; ring).
    apply Rle_trans with (/ w). { destruct (atan_mvt (/ w) 0) as (c & _ & EE). rewrite atan_0, !Rminus_0_r in EE. rewrite EE. assert (0 < / w) by (apply Rinv_0_lt_compat, W). unfold Rdiv. rewrite <- (Rmult_1_r (/ w)) at 2. apply Rmult_le_compat_l; [lra|]. rewrite <- Rinv_1. apply Rinv_le_contravar; [lra|]. pose proof (pow2_ge_0 c). lra. }
    unfold uu. apply Rinv_le_contravar; lra. }
  replace (l_atan lk vf - s * (PI / 2)) with ((l_atan lk vf - atan vf) + (atan vf - s * (PI / 2))) by ring. apply Rle_trans with (1 := Rabs_triang _ _). lra.
Qed.
Hypothesis Dz : double z.
Hypothesis Hz : 85 / 100 * a <= Rabs z <= 10 ^ 40.
Hypothesis Sz : z = s * Rabs z.
Let r := Rabs z.
(** One coordinate of the vector from the pole. *)
Lemma side1 w ef e0 tf u1 u0 : rl 1 ef e0 -> 1 / 2 <= e0 <= a -> Rabs w <= r -> er 4 1 tf u1 -> Rabs (u1 - u0) <= uu -> Rabs u1 <= 1 -> Rabs u0 <= 1 ->
  er (105 / 10) r (fl_sub w (fl_mul ef tf)) (w - e0 * u0).
Proof.
  intros E1 EB WB E3 D U1 U0. pose proof uu_pos as P. pose proof uu_small. assert (RP : 85 / 100 <= r) by (unfold r; lra). assert (AR : a <= 1177 / 1000 * r) by (unfold r; lra).
  assert (X1 := rl_er _ r (1177 / 1000) _ _ E1 ltac:(rewrite Rabs_pos_eq; lra) ltac:(lra) ltac:(lra)).
  assert (X2 := er_times _ _ _ _ (1177 / 1000) 1 _ _ _ _ X1 E3 ltac:(rewrite Rabs_pos_eq; lra) ltac:(lra) ltac:(lra) ltac:(lra) ltac:(lra) ltac:(lra) ltac:(lra)).
  assert (PB : forall q, Rabs q <= 1 -> Rabs (e0 * q) <= 1177 / 1000 * (r * 1)). { intros q Q. rewrite Rabs_mult, (Rabs_pos_eq e0) by lra. rewrite <- Rmult_assoc. apply Rmult_le_compat; try lra. apply Rabs_pos. }
  assert (X3 := er_rnd _ _ (1177 / 1000) _ _ X2 (PB u1 U1) ltac:(apply tny_small; lra) ltac:(lra) ltac:(lra)).
  assert (X4 : er (1177 / 1000) (r * 1) (e0 * u1) (e0 * u0)). { split; [lra|]. rewrite <- Rmult_minus_distr_l, Rabs_mult, (Rabs_pos_eq e0) by lra. apply Rle_trans with ((1177 / 1000 * r) * uu); [apply Rmult_le_compat; try lra; apply Rabs_pos|]. assert (0 <= uu * r) by (apply Rmult_le_pos; lra). lra. }
  assert (X5 := er_trans _ _ _ _ _ _ X3 X4 ltac:(lra)). replace (r * 1) with r in X5 by ring. specialize (PB u0 U0). rewrite Rmult_1_r in PB.
  eapply er_weaken; [apply (er_sub _ _ r (2177 / 1000) _ _ _ _ (er_exact r w ltac:(lra)) X5)|lra|lra]; try lra.
  - apply Rle_trans with (1 := Rabs_triang _ _). rewrite Rabs_Ropp. lra.
  - apply tny_small. lra.
Qed.
Lemma alt_pole : Rabs (l_hypot m (fl_sub z (fl_mul (rnd b) (l_sin m B))) (fl_sub 0 (fl_mul (rnd a) (l_cos m B))) - Rabs (Rabs z - b)) <= 20 * uu * Rabs z.
Proof.
  pose proof uu_pos as U0. pose proof uu_small as U1. assert (RP : 85 / 100 <= r) by (unfold r; lra). pose proof dlt as D. pose proof dlt_uu as D1. destruct pole_trig as (PS & PC & CB & SB). destruct B_sin as (BS & BC & _). destruct B_abs as (_ & B7). set (d := PI / 2 - cpi / 2) in *. clearbody d.
  assert (SA : Rabs s = 1) by (destruct Hs as [->| ->]; [apply Rabs_R1|rewrite Rabs_left; lra]).
  assert (S1 : er 4 1 (l_sin m B) (sin B)). { split; [lra|]. destruct M as ((Q & _) & _). replace (4 * uu * 1) with (4 * uu) by ring. apply Q; [apply B_double|exact B7]. }
  assert (S2 : er 4 1 (l_cos m B) (cos B)). { split; [lra|]. destruct M as ((_ & Q & _) & _). replace (4 * uu * 1) with (4 * uu) by ring. apply Q; [apply B_double|exact B7]. }
  assert (X1 := side1 z (rnd b) b (l_sin m B) (sin B) s ltac:(apply rnd_rl, tny_small; rewrite Rabs_pos_eq; lra) ltac:(lra) ltac:(unfold r; lra) S1 ltac:(rewrite BS, PS; replace (s * cos d - s) with (s * (cos d - 1)) by ring; rewrite s_mul; rewrite Rabs_left1; lra) ltac:(rewrite BS, PS, s_mul, Rabs_pos_eq; lra) ltac:(lra)).
  assert (X2 := side1 0 (rnd a) a (l_cos m B) (cos B) 0 ltac:(apply rnd_rl, tny_small; rewrite Rabs_pos_eq; lra) ltac:(lra) ltac:(rewrite Rabs_R0; lra) S2 ltac:(rewrite BC, PC, Rminus_0_r; rewrite Rabs_pos_eq; lra) ltac:(rewrite BC, PC; rewrite Rabs_pos_eq; lra) ltac:(rewrite Rabs_R0; lra)).
  set (pf := fl_sub z (fl_mul (rnd b) (l_sin m B))) in *. set (qf2 := fl_sub 0 (fl_mul (rnd a) (l_cos m B))) in *. set (p := z - b * s) in *.
  destruct X1 as (_ & X1). destruct X2 as (_ & X2). replace (0 - a * 0) with 0 in X2 by ring. assert (UR : 0 <= uu * r) by (apply Rmult_le_pos; lra).
  assert (HP : hypot p 0 = Rabs (Rabs z - b)). { unfold hypot. replace (p ^ 2 + 0 ^ 2) with (p ^ 2) by ring. rewrite <- (pow2_abs p), sqrt_pow2 by apply Rabs_pos. unfold p. rewrite Sz at 1. replace (s * Rabs z - b * s) with (s * (Rabs z - b)) by ring. apply s_mul. }
  assert (DD : Rabs (hypot pf qf2 - hypot p 0) <= 149 / 10 * uu * r).
  { apply Rle_trans with (1 := L_ecefacc2.hypot_lip _ _ _ _). unfold hypot. set (d1 := pf - p) in *. set (d2 := qf2 - 0) in *. clearbody d1 d2. apply sq_le_inv; [lra|]. rewrite pow2_sqrt by (pose proof (pow2_ge_0 d1); pose proof (pow2_ge_0 d2); lra). rewrite <- (pow2_abs d1), <- (pow2_abs d2).
    assert (Rabs d1 ^ 2 <= (105 / 10 * (uu * r)) ^ 2) by (apply pow_incr; split; [apply Rabs_pos|lra]). assert (Rabs d2 ^ 2 <= (105 / 10 * (uu * r)) ^ 2) by (apply pow_incr; split; [apply Rabs_pos|lra]). replace (149 / 10 * uu * r) with (149 / 10 * (uu * r)) by ring. set (w := uu * r) in *. clearbody w. nra. }
  assert (AR : a <= 1177 / 1000 * r) by (unfold r; lra). assert (HB : hypot p 0 <= 1177 / 1000 * r) by (rewrite HP; fold r; apply Rabs_le; lra).
  assert (HB2 : hypot pf qf2 <= 119 / 100 * r). { assert (149 / 10 * uu * r <= 1 / 100 * r) by (apply Rmult_le_compat_r; lra). apply Rabs_le_inv in DD. lra. }
  destruct M as (_ & _ & _ & _ & _ & _ & _ & _ & _ & _ & _ & _ & _ & Q). specialize (Q pf qf2 (rnd_double _) (rnd_double _)). fold m in Q.
  assert (HH : hypot pf qf2 <= 10 ^ 200). { apply Rle_trans with (1 := HB2). apply Rle_trans with (10 ^ 41); [|apply big_le; lia]. change (10 ^ 41) with (10 * 10 ^ 40). assert (r <= 10 ^ 40) by (unfold r; lra). set (tt := 10 ^ 40) in *. clearbody tt. lra. }
  specialize (Q HH). pose proof e300 as E3. set (w := / 10 ^ 300) in *. clearbody w. assert (4 * uu * hypot pf qf2 <= 4 * uu * (119 / 100 * r)) by (apply Rmult_le_compat_l; lra). assert (uu * (85 / 100) <= uu * r) by (apply Rmult_le_compat_l; lra).
  rewrite <- HP. fold r. replace (l_hypot m pf qf2 - hypot p 0) with ((l_hypot m pf qf2 - hypot pf qf2) + (hypot pf qf2 - hypot p 0)) by ring. apply Rle_trans with (1 := Rabs_triang _ _). lra.
Qed.
End Pole.
