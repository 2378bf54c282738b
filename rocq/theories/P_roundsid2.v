(** Property C99, continued: apparent and local sidereal time in binary64. *)
From Coq Require Import Reals ZArith Lra Lia Psatz.
From Flocq Require Import Core.
From Verif Require Import PyMath M_time M_earth M_sidereal M_float M_floatenu M_floattime M_floatsid Spec_time Spec_float P_float L_float L_floathav L_floatpi P_time P_roundtime P_roundsid.
From Verif Require L_earth L_PyMath L_short9 P_rounding.
Open Scope R_scope.
#[local] Instance prec53 : Prec_gt_0 53 := eq_refl.
#[local] Instance vexp : Valid_exp fexp64 := FLT_exp_valid (-1074) 53.

(** Assumed of C's sine and cosine: within 4 half-ulps of 1 for arguments up to 13 (about two turns). *)
Definition trig_ok (m : libm) : Prop := forall x, double x -> Rabs x <= 13 ->
  Rabs (l_sin m x - sin x) <= 4 * uu /\ Rabs (l_cos m x - cos x) <= 4 * uu.

Lemma pi_hi : 3.14159 < PI < 3.1416. Proof. pose proof pi_tight as PT. unfold cpi in PT. lra. Qed.
Lemma pi_ap : ap (1001 / 1000) 3.1416 fl_pi PI.
Proof. apply const_ap; [rewrite Rabs_pos_eq; pose proof pi_hi; lra|lra]. Qed.
Lemma arcsec_ap : ap 2.01 0.00000485 fl_ARCSEC2RAD ARCSEC2RAD.
Proof. pose proof (ap_divc _ _ 648000 _ _ ltac:(lra) pi_ap ltac:(apply tny_1; lra) ltac:(lra)) as A. unfold fl_ARCSEC2RAD, ARCSEC2RAD. apply ap_weaken with (1 := A); lra. Qed.
(** An angle in degrees, reduced and converted, for a poor approximation of it. *)
Lemma torad_err pf p e : double pf -> Rabs (pf - p) <= e ->
  exists k : Z, Rabs (fl_torad (fl_mod pf 360) - (py_mod p 360 * PI / 180 + IZR k * (2 * PI))) <= 0.017454 * e + 24 * uu /\ Rabs (fl_torad (fl_mod pf 360)) <= 6.4 /\ double (fl_torad (fl_mod pf 360)).
Proof.
  intros D E. assert (D3 : double 360) by (apply (double_int 360); reflexivity). pose proof uu_pos as U. pose proof uu_small as US. pose proof pi_hi as PH.
  destruct (C56_mod_value pf 360 D D3 ltac:(lra)) as [MV _]. destruct (C56_mod_range pf 360 D D3 ltac:(lra)) as [MR _]. set (a := fl_mod pf 360) in *.
  unfold py_mod in *. set (n := Int_part (pf / 360)) in *. set (n' := Int_part (p / 360)). exists (n' - n)%Z. rewrite minus_IZR.
  destruct (base_Int_part (pf / 360)) as [I1 I2]. fold n in I1, I2.
  assert (RE : Rabs (a - (pf - 360 * IZR n)) <= 256 * uu). { rewrite MV. pose proof (rnd_pow 9 (pf - 360 * IZR n) ltac:(lia)) as Q. change (bpow radix2 9) with 512 in Q. specialize (Q ltac:(rewrite Rabs_pos_eq; lra)). lra. }
  pose proof (ap_mul _ _ _ _ _ _ _ _ (ap_exact a 360 ltac:(rewrite Rabs_pos_eq; lra)) pi_ap ltac:(apply tny_1; lra) ltac:(lra)) as A1.
  pose proof (ap_divc _ _ 180 _ _ ltac:(lra) A1 ltac:(apply tny_1; lra) ltac:(lra)) as (_ & A2 & A3). fold (fl_torad a) in A3. split.
  - assert (AE : Rabs ((a - (pf - 360 * IZR n)) * (PI / 180)) <= 256 * uu * 0.017454) by (rewrite Rabs_mult, (Rabs_pos_eq (PI / 180)) by lra; apply Rmult_le_compat; try apply Rabs_pos; lra).
    assert (PE : Rabs ((pf - p) * (PI / 180)) <= e * 0.017454) by (rewrite Rabs_mult, (Rabs_pos_eq (PI / 180)) by lra; apply Rmult_le_compat; try apply Rabs_pos; lra).
    replace (fl_torad a - ((p - 360 * IZR n') * PI / 180 + (IZR n' - IZR n) * (2 * PI))) with ((fl_torad a - a * PI / 180) + ((a - (pf - 360 * IZR n)) * (PI / 180) + (pf - p) * (PI / 180))) by field.
    apply Rabs_le_inv in A3, AE, PE. apply Rabs_le. lra.
  - split; [|apply rnd_double]. apply Rabs_le_inv in A2, A3. apply Rabs_le. lra.
Qed.
Lemma sin_near x y k : Rabs (sin x - sin y) <= Rabs (x - (y + IZR k * (2 * PI))).
Proof. rewrite <- (L_PyMath.sin_period_Z y k). apply L_short9.lip_sin. Qed.
Lemma cos_near x y k : Rabs (cos x - cos y) <= Rabs (x - (y + IZR k * (2 * PI))).
Proof. rewrite <- (L_PyMath.cos_period_Z y k). apply L_short9.lip_cos. Qed.
Section Trig.
Variable m : libm. Hypothesis M : trig_ok m.
Lemma trig1 xf x k e T : double xf -> Rabs xf <= 13 -> Rabs (xf - (x + IZR k * (2 * PI))) <= e -> 1 <= T -> e <= 2400000 * uu * T ->
  ap 5000 (500 * T) (l_sin m xf) (sin x) /\ ap 5000 (500 * T) (l_cos m xf) (cos x).
Proof.
  intros D B E HT HE. destruct (M xf D B) as [M1 M2]. pose proof (sin_near xf x k) as S. pose proof (cos_near xf x k) as C. pose proof uu_pos as U. assert (UT : uu <= uu * T) by nra. pose proof (SIN_bound x). pose proof (COS_bound x).
  split; (split; [lra|split; [apply Rabs_le; lra|]]).
  - replace (l_sin m xf - sin x) with ((l_sin m xf - sin xf) + (sin xf - sin x)) by ring. apply Rle_trans with (1 := Rabs_triang _ _). replace (5000 * uu * (500 * T)) with (2500000 * (uu * T)) by ring. lra.
  - replace (l_cos m xf - cos x) with ((l_cos m xf - cos xf) + (cos xf - cos x)) by ring. apply Rle_trans with (1 := Rabs_triang _ _). replace (5000 * uu * (500 * T)) with (2500000 * (uu * T)) by ring. lra.
Qed.
(** The four uses of an angle: itself and its double. *)
Lemma trig_ap pf p T : double pf -> 1 <= T -> Rabs (pf - p) <= 60000000 * uu * T ->
  let xf := fl_torad (fl_mod pf 360) in let x := py_mod p 360 * PI / 180 in
  ap 5000 (500 * T) (l_sin m xf) (sin x) /\ ap 5000 (500 * T) (l_cos m xf) (cos x) /\
  ap 5000 (500 * T) (l_sin m (fl_mul 2 xf)) (sin (2 * x)) /\ ap 5000 (500 * T) (l_cos m (fl_mul 2 xf)) (cos (2 * x)).
Proof.
  intros D HT E. cbv zeta. destruct (torad_err pf p _ D E) as (k & K & B & DX). set (xf := fl_torad _) in *. set (x := py_mod p 360 * PI / 180) in *. clearbody xf x. pose proof uu_pos as U. assert (UT : uu <= uu * T) by nra.
  destruct (trig1 xf x k _ T DX ltac:(lra) K HT ltac:(lra)) as [A1 A2]. split; [exact A1|]. split; [exact A2|].
  apply (trig1 (fl_mul 2 xf) (2 * x) (2 * k) (2 * (0.017454 * (60000000 * uu * T) + 24 * uu) + 8 * uu) T); [apply rnd_double| | |exact HT|lra].
  - unfold fl_mul. pose proof (rnd_pow 4 (2 * xf) ltac:(lia)) as Q. change (bpow radix2 4) with 16 in Q. apply Rabs_le_inv in B. specialize (Q ltac:(apply Rabs_le; lra)). apply Rabs_le_inv in Q. pose proof uu_small. apply Rabs_le. lra.
  - unfold fl_mul. pose proof (rnd_pow 4 (2 * xf) ltac:(lia)) as Q. change (bpow radix2 4) with 16 in Q. apply Rabs_le_inv in B. specialize (Q ltac:(apply Rabs_le; lra)). rewrite mult_IZR. apply Rabs_le_inv in Q, K. apply Rabs_le. lra.
Qed.
End Trig.
Section Nut.
Variables (m : libm) (sq cube : R -> R) (tf t T : R).
Hypothesis M : trig_ok m. Hypothesis P : pow_ok sq cube. Hypothesis HT : 1 <= T <= 82. Hypothesis DT : double tf. Hypothesis AT : ap 120 T tf t.
Lemma tfb : Rabs tf <= 10001 / 10000 * T.
Proof. destruct AT as (_ & A & B). pose proof uu_small. pose proof uu_pos. apply Rabs_le_inv in A, B. apply Rabs_le. assert (0 <= uu * T <= / 1000000000 * T) by nra. lra. Qed.
Lemma e300 : / 10 ^ 300 <= / 100 * uu.
Proof. apply Rle_trans with (/ 10 ^ 20); [apply Rinv_le_contravar; [apply pow_lt; lra|apply Rle_pow; [lra|lia]]|]. unfold uu. lra. Qed.
Lemma sq_ap : ap 260 (T ^ 2) (sq tf) (t ^ 2).
Proof.
  destruct AT as (_ & A & B). pose proof tfb as FB. destruct (P tf DT ltac:(lra)) as [S _]. pose proof uu_pos as U. pose proof uu_small as US. pose proof (Rabs_pos t). pose proof (Rabs_pos tf).
  split; [lra|]. split; [rewrite <- RPow_abs; apply pow_incr; lra|].
  assert (E : Rabs (tf ^ 2 - t ^ 2) <= (120 * uu * T) * (21 / 10 * T)). { replace (tf ^ 2 - t ^ 2) with ((tf - t) * (tf + t)) by ring. rewrite Rabs_mult. apply Rmult_le_compat; try apply Rabs_pos; [exact B|]. apply Rle_trans with (1 := Rabs_triang _ _). lra. }
  assert (F : Rabs (tf ^ 2) <= 101 / 100 * T ^ 2). { rewrite <- RPow_abs. apply Rle_trans with ((10001 / 10000 * T) ^ 2); [apply pow_incr; lra|]. rewrite Rpow_mult_distr. apply Rmult_le_compat_r; [apply pow_le; lra|lra]. }
  pose proof e300 as G. set (e := / 10 ^ 300) in *. clearbody e. set (W := uu * T ^ 2). assert (HW : uu <= W). { unfold W. assert (1 <= T ^ 2) by (replace 1 with (1 ^ 2) by ring; apply pow_incr; lra). nra. }
  assert (F2 : 2 * uu * Rabs (tf ^ 2) <= 202 / 100 * W) by (unfold W; replace (202 / 100 * (uu * T ^ 2)) with (2 * uu * (101 / 100 * T ^ 2)) by field; apply Rmult_le_compat_l; lra).
  assert (E2 : Rabs (tf ^ 2 - t ^ 2) <= 253 * W) by (apply Rle_trans with (1 := E); replace (120 * uu * T * (21 / 10 * T)) with (120 * (21 / 10) * W) by (unfold W; ring); lra).
  replace (260 * uu * T ^ 2) with (260 * W) by (unfold W; ring). replace (sq tf - t ^ 2) with ((sq tf - tf ^ 2) + (tf ^ 2 - t ^ 2)) by ring. apply Rle_trans with (1 := Rabs_triang _ _). lra.
Qed.
Lemma cube_ap : ap 380 (T ^ 3) (cube tf) (t ^ 3).
Proof.
  destruct AT as (_ & A & B). pose proof tfb as FB. destruct (P tf DT ltac:(lra)) as [_ S]. pose proof uu_pos as U. pose proof uu_small as US. pose proof (Rabs_pos t). pose proof (Rabs_pos tf).
  split; [lra|]. split; [rewrite <- RPow_abs; apply pow_incr; lra|].
  assert (E0 : Rabs (tf ^ 2 + tf * t + t ^ 2) <= 31 / 10 * T ^ 2). { apply Rle_trans with (1 := Rabs_triang _ _). assert (E1 := Rabs_triang (tf ^ 2) (tf * t)). rewrite Rabs_mult, <- !RPow_abs in *. nra. }
  assert (E : Rabs (tf ^ 3 - t ^ 3) <= (120 * uu * T) * (31 / 10 * T ^ 2)). { replace (tf ^ 3 - t ^ 3) with ((tf - t) * (tf ^ 2 + tf * t + t ^ 2)) by ring. rewrite Rabs_mult. apply Rmult_le_compat; try apply Rabs_pos; assumption. }
  assert (F : Rabs (tf ^ 3) <= 101 / 100 * T ^ 3). { rewrite <- RPow_abs. apply Rle_trans with ((10001 / 10000 * T) ^ 3); [apply pow_incr; lra|]. rewrite Rpow_mult_distr. apply Rmult_le_compat_r; [apply pow_le; lra|lra]. }
  pose proof e300 as G. set (e := / 10 ^ 300) in *. clearbody e. set (W := uu * T ^ 3). assert (HW : uu <= W). { unfold W. assert (1 <= T ^ 3) by (replace 1 with (1 ^ 3) by ring; apply pow_incr; lra). nra. }
  assert (F2 : 2 * uu * Rabs (tf ^ 3) <= 202 / 100 * W) by (unfold W; replace (202 / 100 * (uu * T ^ 3)) with (2 * uu * (101 / 100 * T ^ 3)) by field; apply Rmult_le_compat_l; lra).
  assert (E2 : Rabs (tf ^ 3 - t ^ 3) <= 373 * W) by (apply Rle_trans with (1 := E); replace (120 * uu * T * (31 / 10 * T ^ 2)) with (120 * (31 / 10) * W) by (unfold W; ring); lra).
  replace (380 * uu * T ^ 3) with (380 * W) by (unfold W; ring). replace (cube tf - t ^ 3) with ((cube tf - tf ^ 3) + (tf ^ 3 - t ^ 3)) by ring. apply Rle_trans with (1 := Rabs_triang _ _). lra.
Qed.
Lemma Tpow : T ^ 2 <= 82 * T /\ T ^ 3 <= 6724 * T /\ 1 <= T ^ 2 /\ 1 <= T ^ 3. Proof. repeat split; nra. Qed.
Ltac tn := apply tny_1; lra.
Ltac cst := apply const_ap; [rewrite Rabs_pos_eq; lra|lra].
Lemma lin_err c0 c1 : 0 <= c0 <= 360 -> 1000 <= c1 <= 481268 -> Rabs (fl_add (rnd c0) (fl_mul (rnd c1) tf) - (c0 + c1 * t)) <= 60000000 * uu * T.
Proof.
  intros H0 H1. assert (C0 : ap (1001 / 1000) 360 (rnd c0) c0) by cst. assert (C1 : ap (1001 / 1000) 481268 (rnd c1) c1) by cst.
  pose proof (ap_mul _ _ _ _ _ _ _ _ C1 AT ltac:(tn) ltac:(lra)) as A2. pose proof (ap_add 122.1 _ _ _ _ _ _ _ _ C0 A2 ltac:(lra) ltac:(lra) ltac:(tn) ltac:(lra)) as (_ & _ & A3).
  apply Rle_trans with (1 := A3). pose proof uu_pos. assert (uu <= uu * T) by nra. nra.
Qed.
Lemma omega_err : Rabs (fl_add (fl_add (fl_sub (rnd 125.04452) (fl_mul (rnd 1934.136261) tf)) (fl_mul (rnd 0.0020708) (sq tf))) (fl_div (cube tf) 450000)
  - (125.04452 - 1934.136261 * t + 0.0020708 * t ^ 2 + t ^ 3 / 450000)) <= 60000000 * uu * T.
Proof.
  destruct Tpow as (T2 & T3 & T2' & T3').
  assert (C0 : ap (1001 / 1000) 126 (rnd 125.04452) 125.04452) by cst. assert (C1 : ap (1001 / 1000) 1935 (rnd 1934.136261) 1934.136261) by cst. assert (C2 : ap (1001 / 1000) 0.01 (rnd 0.0020708) 0.0020708) by cst.
  pose proof (ap_mul _ _ _ _ _ _ _ _ C1 AT ltac:(tn) ltac:(lra)) as A2. pose proof (ap_sub 122.1 _ _ _ _ _ _ _ _ C0 A2 ltac:(lra) ltac:(lra) ltac:(tn) ltac:(lra)) as A3.
  pose proof (ap_mul _ _ _ _ _ _ _ _ C2 sq_ap ltac:(tn) ltac:(lra)) as A4. pose proof (ap_add 263 _ _ _ _ _ _ _ _ A3 A4 ltac:(lra) ltac:(lra) ltac:(tn) ltac:(lra)) as A5.
  pose proof (ap_divc _ _ 450000 _ _ ltac:(lra) cube_ap ltac:(tn) ltac:(lra)) as A6. pose proof (ap_add 382 _ _ _ _ _ _ _ _ A5 A6 ltac:(lra) ltac:(lra) ltac:(tn) ltac:(lra)) as (_ & _ & A7).
  apply Rle_trans with (1 := A7). pose proof uu_pos. assert (B : 126 + 1935 * T + 0.01 * T ^ 2 + T ^ 3 / 450000 <= 3000 * T) by lra. replace (60000000 * uu * T) with ((20000 * uu) * (3000 * T)) by ring. apply Rmult_le_compat; [|clear - T2' T3' HT; lra|lra|exact B]. lra.
Qed.
Let dpf := fst (fl_nutation_short m sq cube tf).
Let def := snd (fl_nutation_short m sq cube tf).
Lemma nut_ap : ap 5020 (0.0462 * T) dpf (fst (nutation_short t)) /\ ap 5020 (0.0243 * T) def (snd (nutation_short t)).
Proof.
  unfold dpf, def, fl_nutation_short, nutation_short. cbn [fst snd]. replace 360.0 with 360 by lra. replace 180.0 with 180 by lra. replace 2.0 with 2 by lra. replace 450000.0 with 450000 by lra.
  destruct (trig_ap m M (fl_add (rnd 280.4665) (fl_mul (rnd 36000.7698) tf)) (280.4665 + 36000.7698 * t) T ltac:(apply rnd_double) ltac:(lra) (lin_err 280.4665 36000.7698 ltac:(lra) ltac:(lra))) as (_ & _ & L1 & L2).
  destruct (trig_ap m M (fl_add (rnd 218.3165) (fl_mul (rnd 481267.8813) tf)) (218.3165 + 481267.8813 * t) T ltac:(apply rnd_double) ltac:(lra) (lin_err 218.3165 481267.8813 ltac:(lra) ltac:(lra))) as (_ & _ & P1 & P2).
  destruct (trig_ap m M (fl_add (fl_add (fl_sub (rnd 125.04452) (fl_mul (rnd 1934.136261) tf)) (fl_mul (rnd 0.0020708) (sq tf))) (fl_div (cube tf) 450000)) (125.04452 - 1934.136261 * t + 0.0020708 * t ^ 2 + t ^ 3 / 450000) T ltac:(apply rnd_double) ltac:(lra) omega_err) as (O1 & O2 & O3 & O4).
  set (sL := l_sin m (fl_mul 2 (fl_torad (fl_mod (fl_add (rnd 280.4665) _) 360)))) in *. set (cL := l_cos m (fl_mul 2 (fl_torad (fl_mod (fl_add (rnd 280.4665) _) 360)))) in *.
  set (sP := l_sin m (fl_mul 2 (fl_torad (fl_mod (fl_add (rnd 218.3165) _) 360)))) in *. set (cP := l_cos m (fl_mul 2 (fl_torad (fl_mod (fl_add (rnd 218.3165) _) 360)))) in *.
  set (om := fl_torad (fl_mod (fl_add (fl_add (fl_sub (rnd 125.04452) (fl_mul (rnd 1934.136261) tf)) (fl_mul (rnd 0.0020708) (sq tf))) (fl_div (cube tf) 450000)) 360)) in *. set (sO := l_sin m om) in *. set (cO := l_cos m om) in *. set (sO2 := l_sin m (fl_mul 2 om)) in *. set (cO2 := l_cos m (fl_mul 2 om)) in *. clearbody sL cL sP cP sO cO sO2 cO2.
  set (xL := sin (2 * (py_mod (280.4665 + _) 360 * PI / 180))) in *. set (yL := cos (2 * (py_mod (280.4665 + _) 360 * PI / 180))) in *.
  set (xP := sin (2 * (py_mod (218.3165 + _) 360 * PI / 180))) in *. set (yP := cos (2 * (py_mod (218.3165 + _) 360 * PI / 180))) in *.
  set (ox := py_mod (125.04452 - 1934.136261 * t + 0.0020708 * t ^ 2 + t ^ 3 / 450000) 360 * PI / 180) in *. set (xO := sin ox) in *. set (yO := cos ox) in *. set (xO2 := sin (2 * ox)) in *. set (yO2 := cos (2 * ox)) in *. clearbody xL yL xP yP xO yO xO2 yO2.
  assert (W : forall c B sf s, 0 <= c <= B -> 0.01 <= B -> ap 5000 (500 * T) sf s -> ap 5003 (B * (500 * T)) (fl_mul (rnd c) sf) (c * s)).
  { intros c B sf s HB HB' A. assert (C : ap (1001 / 1000) B (rnd c) c) by cst. assert (TB : 1 / 100000000 <= B * (500 * T)) by nra. pose proof (ap_mul _ _ _ _ _ _ _ _ C A ltac:(apply tny_1; exact TB) ltac:(lra)) as X. apply ap_weaken with (1 := X); lra. }
  assert (A1 : ap 5003 (17.2 * (500 * T)) (fl_mul (- rnd 17.20) sO) (- 17.20 * xO)).
  { pose proof (W 17.20 17.2 sO xO ltac:(lra) ltac:(lra) O1) as X. apply ap_opp in X. replace (fl_mul (- rnd 17.20) sO) with (- fl_mul (rnd 17.20) sO) by (unfold fl_mul; rewrite <- rnd_opp; f_equal; ring). replace (- 17.20 * xO) with (- (17.20 * xO)) by lra. exact X. }
  pose proof (W 1.32 1.32 sL xL ltac:(lra) ltac:(lra) L1) as A2. pose proof (W 0.23 0.23 sP xP ltac:(lra) ltac:(lra) P1) as A3. pose proof (W 0.21 0.21 sO2 xO2 ltac:(lra) ltac:(lra) O3) as A4.
  pose proof (W 9.20 9.2 cO yO ltac:(lra) ltac:(lra) O2) as B1. pose proof (W 0.57 0.57 cL yL ltac:(lra) ltac:(lra) L2) as B2. pose proof (W 0.10 0.1 cP yP ltac:(lra) ltac:(lra) P2) as B3. pose proof (W 0.09 0.09 cO2 yO2 ltac:(lra) ltac:(lra) O4) as B4.
  pose proof (ap_sub 5003 _ _ _ _ _ _ _ _ A1 A2 ltac:(lra) ltac:(lra) ltac:(tn) ltac:(lra)) as A5. pose proof (ap_sub 5004.01 _ _ _ _ _ _ _ _ A5 A3 ltac:(lra) ltac:(lra) ltac:(tn) ltac:(lra)) as A6. pose proof (ap_add 5006 _ _ _ _ _ _ _ _ A6 A4 ltac:(lra) ltac:(lra) ltac:(tn) ltac:(lra)) as A7.
  pose proof (ap_add 5003 _ _ _ _ _ _ _ _ B1 B2 ltac:(lra) ltac:(lra) ltac:(tn) ltac:(lra)) as B5. pose proof (ap_add 5004.01 _ _ _ _ _ _ _ _ B5 B3 ltac:(lra) ltac:(lra) ltac:(tn) ltac:(lra)) as B6. pose proof (ap_sub 5006 _ _ _ _ _ _ _ _ B6 B4 ltac:(lra) ltac:(lra) ltac:(tn) ltac:(lra)) as B7.
  pose proof (ap_mul _ _ _ _ _ _ _ _ A7 arcsec_ap ltac:(tn) ltac:(lra)) as A8. pose proof (ap_mul _ _ _ _ _ _ _ _ B7 arcsec_ap ltac:(tn) ltac:(lra)) as B8.
  split; [apply ap_weaken with (1 := A8); lra|apply ap_weaken with (1 := B8); lra].
Qed.
Lemma nut_true : Rabs (fst (nutation_short t)) <= 0.0001 /\ Rabs (snd (nutation_short t)) <= 0.0001.
Proof.
  unfold nutation_short. cbn [fst snd]. repeat match goal with |- context [sin ?x] => let s := fresh "s" in pose proof (SIN_bound x); set (s := sin x) in *; clearbody s | |- context [cos ?x] => let s := fresh "c" in pose proof (COS_bound x); set (s := cos x) in *; clearbody s end.
  pose proof arcsec_ap as (_ & A & _). assert (A0 : 0 <= ARCSEC2RAD) by (unfold ARCSEC2RAD; pose proof pi_hi; lra). rewrite Rabs_pos_eq in A by exact A0. set (q := ARCSEC2RAD) in *. clearbody q.
  split; rewrite Rabs_mult, (Rabs_pos_eq q) by exact A0; (apply Rle_trans with (20 * 0.00000485); [|lra]); apply Rmult_le_compat; try apply Rabs_pos; try lra; apply Rabs_le; lra.
Qed.
Lemma obl_ap : ap 131 (0.4103 * T) (fl_mean_obliquity sq cube tf) (mean_obliquity t) /\ Rabs (mean_obliquity t) <= 0.45.
Proof.
  destruct Tpow as (T2 & T3 & T2' & T3'). unfold fl_mean_obliquity, mean_obliquity.
  assert (C0 : ap (1001 / 1000) 84382 (rnd 84381.448) 84381.448) by cst. assert (C1 : ap (1001 / 1000) 46.9 (rnd 46.8150) 46.8150) by cst. assert (C2 : ap (1001 / 1000) 0.0006 (rnd 0.00059) 0.00059) by cst. assert (C3 : ap (1001 / 1000) 0.0019 (rnd 0.001813) 0.001813) by cst.
  pose proof (ap_mul _ _ _ _ _ _ _ _ C1 AT ltac:(tn) ltac:(lra)) as A1. pose proof (ap_sub 122.1 _ _ _ _ _ _ _ _ C0 A1 ltac:(lra) ltac:(lra) ltac:(tn) ltac:(lra)) as A2.
  pose proof (ap_mul _ _ _ _ _ _ _ _ C2 sq_ap ltac:(tn) ltac:(lra)) as A3. assert (A3' : ap 1 (50 * T) (fl_mul (rnd 0.00059) (sq tf)) (0.00059 * t ^ 2)) by (apply ap_trade with (1 := A3); lra).
  pose proof (ap_sub 123.2 _ _ _ _ _ _ _ _ A2 A3' ltac:(lra) ltac:(lra) ltac:(tn) ltac:(lra)) as A4.
  pose proof (ap_mul _ _ _ _ _ _ _ _ C3 cube_ap ltac:(tn) ltac:(lra)) as A5. assert (A5' : ap 100 (50 * T) (fl_mul (rnd 0.001813) (cube tf)) (0.001813 * t ^ 3)) by (apply ap_trade with (1 := A5); lra).
  pose proof (ap_add 124.3 _ _ _ _ _ _ _ _ A4 A5' ltac:(lra) ltac:(lra) ltac:(tn) ltac:(lra)) as A6. pose proof (ap_mul _ _ _ _ _ _ _ _ A6 arcsec_ap ltac:(tn) ltac:(lra)) as A7.
  split; [apply ap_weaken with (1 := A7); lra|].
  destruct AT as (_ & B & _). destruct sq_ap as (_ & B2 & _). destruct cube_ap as (_ & B3 & _). pose proof arcsec_ap as (_ & A & _). assert (A0 : 0 <= ARCSEC2RAD) by (unfold ARCSEC2RAD; pose proof pi_hi; lra). rewrite Rabs_pos_eq in A by exact A0.
  assert (T2x : T ^ 2 <= 6724) by nra. assert (T3x : T ^ 3 <= 551368) by nra. set (t2 := t ^ 2) in *. set (t3 := t ^ 3) in *. clearbody t2 t3. apply Rabs_le_inv in B, B2, B3.
  rewrite Rabs_mult, (Rabs_pos_eq ARCSEC2RAD) by exact A0. apply Rle_trans with (90000 * 0.00000485); [|lra]. apply Rmult_le_compat; try apply Rabs_pos; try lra. apply Rabs_le. lra.
Qed.
Lemma eqe_err : Rabs (fl_equation_of_equinoxes m sq cube tf - equation_of_equinoxes t) <= 240 * uu * T /\ Rabs (equation_of_equinoxes t) <= 0.0001.
Proof.
  destruct nut_ap as [(_ & _ & A) A2]. destruct nut_true as [N1 N2]. destruct obl_ap as [O1 O2]. pose proof uu_pos as U. pose proof uu_small as US. assert (UT : uu <= uu * T) by nra. assert (UT2 : uu * T <= / 10000000000) by nra.
  unfold fl_equation_of_equinoxes, equation_of_equinoxes. unfold dpf, def in *. destruct (fl_nutation_short m sq cube tf) as [df ef]. destruct (nutation_short t) as [d e]. cbn [fst snd] in *.
  pose proof (ap_add 5020 _ _ _ _ _ _ _ _ O1 A2 ltac:(lra) ltac:(lra) ltac:(tn) ltac:(lra)) as (_ & _ & X). set (xf := fl_add _ _) in *. set (x := mean_obliquity t) in *.
  assert (X' : Rabs (xf - (x + e)) <= 2190 * (uu * T)) by (apply Rle_trans with (1 := X); nra). clear X.
  assert (XB : Rabs xf <= 13) by (apply Rabs_le_inv in O2, N2, X'; apply Rabs_le; lra). destruct (M xf ltac:(apply rnd_double) XB) as [_ Q].
  assert (CE : Rabs (l_cos m xf - cos (x + e)) <= 2194 * (uu * T)). { replace (l_cos m xf - cos (x + e)) with ((l_cos m xf - cos xf) + (cos xf - cos (x + e))) by ring. apply Rle_trans with (1 := Rabs_triang _ _). pose proof (L_short9.lip_cos xf (x + e)). lra. }
  set (cf := l_cos m xf) in *. pose proof (COS_bound (x + e)) as CB. set (c := cos (x + e)) in *. clearbody cf c xf x.
  assert (CA : Rabs c <= 1) by (apply Rabs_le; lra). assert (CF : Rabs cf <= 1.001) by (apply Rabs_le_inv in CE; apply Rabs_le; lra).
  assert (A' : Rabs (df - d) <= 232 * (uu * T)) by (apply Rle_trans with (1 := A); nra).
  assert (P1 : Rabs ((df - d) * cf) <= 232 * (uu * T) * 1.001) by (rewrite Rabs_mult; apply Rmult_le_compat; try apply Rabs_pos; assumption).
  assert (P2 : Rabs (d * (cf - c)) <= 0.0001 * (2194 * (uu * T))) by (rewrite Rabs_mult; apply Rmult_le_compat; try apply Rabs_pos; assumption).
  assert (P3 : Rabs (d * c) <= 0.0001 * 1) by (rewrite Rabs_mult; apply Rmult_le_compat; try apply Rabs_pos; assumption). split; [|lra].
  assert (V : df * cf - d * c = (df - d) * cf + d * (cf - c)) by ring. apply Rabs_le_inv in P1, P2, P3.
  unfold fl_mul. pose proof (rnd_1 (df * cf) ltac:(apply Rabs_le; lra)) as R1. apply Rabs_le_inv in R1. apply Rabs_le. lra.
Qed.
End Nut.
(** Equality up to whole turns and an error. *)
Definition near (e a b : R) : Prop := exists k : Z, Rabs (a - b - 2 * PI * IZR k) <= e.
Lemma near_trans e1 e2 a b c : near e1 a b -> near e2 b c -> near (e1 + e2) a c.
Proof. intros [k K] [l L]. exists (k + l)%Z. rewrite plus_IZR. replace (a - c - 2 * PI * (IZR k + IZR l)) with ((a - b - 2 * PI * IZR k) + (b - c - 2 * PI * IZR l)) by ring. apply Rle_trans with (1 := Rabs_triang _ _). lra. Qed.
Lemma near_weaken e e' a b : near e a b -> e <= e' -> near e' a b.
Proof. intros [k K] H. exists k. lra. Qed.
Lemma near_mod x : near 0 x (py_mod x (2 * PI)).
Proof. exists (Int_part (x / (2 * PI))). unfold py_mod. rewrite Rabs_right; lra. Qed.
Lemma near_plus e f a b c d : near e a b -> Rabs (c - d) <= f -> near (e + f) (a + c) (b + d).
Proof. intros [k K] H. exists k. replace (a + c - (b + d) - 2 * PI * IZR k) with ((a - b - 2 * PI * IZR k) + (c - d)) by ring. apply Rle_trans with (1 := Rabs_triang _ _). lra. Qed.
Lemma near_fl_mod gf N : double gf -> Rabs gf <= 6.28 * N -> near (4 * (N + 2) * uu) (fl_mod gf fl_tau) gf.
Proof.
  intros DG GB. pose proof tau_pos as TP. pose proof tau_err as TE. pose proof uu_pos as U. assert (DT : double fl_tau) by apply rnd_double.
  destruct (C56_mod_value gf fl_tau DG DT ltac:(lra)) as [-> _]. unfold py_mod. set (n := Int_part (gf / fl_tau)). exists (- n)%Z. rewrite opp_IZR.
  destruct (base_Int_part (gf / fl_tau)) as [I1 I2]. fold n in I1, I2. assert (X : gf / fl_tau * fl_tau = gf) by (field; lra). set (q := gf / fl_tau) in *.
  assert (V : 0 <= gf - fl_tau * IZR n <= fl_tau) by (split; nra).
  assert (RE : Rabs (rnd (gf - fl_tau * IZR n) - (gf - fl_tau * IZR n)) <= 4 * uu). { pose proof (rnd_pow 3 (gf - fl_tau * IZR n) ltac:(lia)) as Q. change (bpow radix2 3) with 8 in Q. specialize (Q ltac:(rewrite Rabs_pos_eq; lra)). lra. }
  assert (NB : Rabs (IZR n) <= N + 1). { assert (Rabs q <= N). { unfold q, Rdiv. rewrite Rabs_mult, (Rabs_pos_eq (/ fl_tau)) by (left; apply Rinv_0_lt_compat; lra). apply Rle_trans with (6.28 * N * / 6.28); [|lra]. apply Rmult_le_compat; [apply Rabs_pos|left; apply Rinv_0_lt_compat; lra|exact GB|apply Rinv_le_contravar; lra]. } apply Rabs_le_inv in H. apply Rabs_le. lra. }
  assert (NE : Rabs (IZR n * (fl_tau - 2 * PI)) <= (N + 1) * (4 * uu)) by (rewrite Rabs_mult; apply Rmult_le_compat; try apply Rabs_pos; assumption).
  set (v := gf - fl_tau * IZR n) in *. assert (EV : v = gf - fl_tau * IZR n) by reflexivity. clearbody v.
  replace (rnd v - gf - 2 * PI * - IZR n) with ((rnd v - v) - IZR n * (fl_tau - 2 * PI)) by (rewrite EV; ring). apply Rabs_le_inv in RE, NE. apply Rabs_le. lra.
Qed.
Lemma gast_err m sq cube j1f j1 j2f j2 T E : trig_ok m -> pow_ok sq cube -> 1 <= T <= 82 -> near E (fl_greenwichsrt sq cube j1f) (greenwichsrt j1) -> ap 120 T (fl_julian_centuries j2f) (julian_centuries j2) ->
  near (E + 270 * uu * T) (fl_apparent_sidereal_time m sq cube j1f j2f) (greenwich_apparent_sidereal_time j1 j2) /\ Rabs (fl_apparent_sidereal_time m sq cube j1f j2f) <= 6.29.
Proof.
  intros M P HT NE AT. destruct (eqe_err m sq cube (fl_julian_centuries j2f) (julian_centuries j2) T M P HT ltac:(apply rnd_double) AT) as [Q1 Q2]. unfold fl_apparent_sidereal_time, greenwich_apparent_sidereal_time. pose proof (C99_range sq cube j1f) as [G1 G2]. pose proof tau_pos as TP. pose proof uu_pos as U. pose proof uu_small as US. assert (UT : uu <= uu * T) by nra. assert (UT2 : uu * T <= / 10000000000) by nra.
  set (gf := fl_greenwichsrt sq cube j1f) in *. set (qf := fl_equation_of_equinoxes m sq cube (fl_julian_centuries j2f)) in *. set (q := equation_of_equinoxes (julian_centuries j2)) in *. change (greenwich_mean_sidereal_time j1) with (greenwichsrt j1). set (g := greenwichsrt j1) in *. clearbody gf qf q g.
  assert (QB : Rabs qf <= 0.001) by (apply Rabs_le_inv in Q1, Q2; apply Rabs_le; lra). assert (S : Rabs (fl_add gf qf - (gf + qf)) <= 4 * uu). { unfold fl_add. pose proof (rnd_pow 3 (gf + qf) ltac:(lia)) as X. change (bpow radix2 3) with 8 in X. apply Rabs_le_inv in QB. specialize (X ltac:(apply Rabs_le; lra)). lra. }
  set (sf := fl_add gf qf) in *. assert (DS : double sf) by apply rnd_double. clearbody sf. assert (SB : Rabs sf <= 6.28 * 1.1) by (apply Rabs_le_inv in S, QB; apply Rabs_le; lra).
  split; [|destruct (C56_mod_range sf fl_tau DS ltac:(apply rnd_double) ltac:(lra)) as [X _]; apply Rabs_le; lra].
  apply near_weaken with (4 * (1.1 + 2) * uu + ((E + (240 * uu * T + 4 * uu)) + 0)); [|lra]. apply near_trans with sf; [apply near_fl_mod; assumption|]. apply near_trans with (g + q); [|unfold tau; apply near_mod].
  replace sf with (gf + (sf - gf)) by ring. apply near_plus; [exact NE|]. apply Rabs_le_inv in S, Q1. apply Rabs_le. lra.
Qed.
(** The small angles on their own (a mistake in the obliquity would hide in the error of the sidereal time): mean obliquity within 7e-15 rad and equation of the
    equinoxes within 3e-14 rad, per century from J2000 and at least one. *)
Theorem C99_small_angles : forall m sq cube ttt, trig_ok m -> pow_ok sq cube -> double ttt -> Rabs ttt <= 82 ->
  Rabs (fl_mean_obliquity sq cube ttt - mean_obliquity ttt) <= 7 / 10 ^ 15 * Rmax 1 (Rabs ttt) /\
  Rabs (fl_equation_of_equinoxes m sq cube ttt - equation_of_equinoxes ttt) <= 3 / 10 ^ 14 * Rmax 1 (Rabs ttt).
Proof.
  intros m sq cube ttt M P D H. pose proof (Rmax_l 1 (Rabs ttt)) as M1. pose proof (Rmax_r 1 (Rabs ttt)) as M2. assert (M3 : Rmax 1 (Rabs ttt) <= 82) by (apply Rmax_lub; lra). set (T := Rmax 1 (Rabs ttt)) in *.
  assert (A : ap 120 T ttt ttt) by (apply ap_weaken with 0 T; [apply ap_exact; exact M2|lra|lra]).
  destruct (obl_ap sq cube ttt ttt T P ltac:(lra) D A) as [(_ & _ & O) _]. destruct (eqe_err m sq cube ttt ttt T M P ltac:(lra) D A) as [Q _].
  split; [apply Rle_trans with (1 := O)|apply Rle_trans with (1 := Q)]; unfold uu; lra.
Qed.
(** Greenwich apparent sidereal time, from two Julian dates (UT1 and TT). *)
Theorem C99_apparent : forall m sq cube j1 j2, trig_ok m -> pow_ok sq cube -> Rabs (j1 - 2451545) <= 81 * 36525 -> Rabs (j2 - 2451545) <= 81 * 36525 ->
  exists k : Z, Rabs (fl_apparent_sidereal_time m sq cube j1 j2 - greenwich_apparent_sidereal_time j1 j2 - 2 * PI * IZR k)
    <= 3.3 / 10 ^ 10 * Rmax 1 (Rmax (Rabs (j1 - 2451545)) (Rabs (j2 - 2451545)) / 36525).
Proof.
  intros m sq cube j1 j2 M P H1 H2. set (W := Rmax (Rabs (j1 - 2451545)) (Rabs (j2 - 2451545))). pose proof (Rmax_l (Rabs (j1 - 2451545)) (Rabs (j2 - 2451545))) as W1. pose proof (Rmax_r (Rabs (j1 - 2451545)) (Rabs (j2 - 2451545))) as W2. assert (W3 : W <= 81 * 36525) by (apply Rmax_lub; assumption). fold W in W1, W2. clearbody W.
  pose proof (Rmax_l 1 (W / 36525)) as M1. pose proof (Rmax_r 1 (W / 36525)) as M2. set (T := Rmax 1 (W / 36525)) in *. assert (M3 : T <= 81) by (apply Rmax_lub; lra). clearbody T.
  pose proof (sid_err sq cube j1 T P ltac:(lra) ltac:(lra)) as N. change (near (3.2 / 10 ^ 10 * T) (fl_greenwichsrt sq cube j1) (greenwichsrt j1)) in N.
  assert (A : ap 120 T (fl_julian_centuries j2) (julian_centuries j2)). { pose proof (t_ap j2 T ltac:(lra) ltac:(lra)) as A. unfold julian_centuries. replace 2451545.0 with 2451545 by lra. replace 36525.0 with 36525 by lra. apply ap_weaken with (1 := A); lra. }
  destruct (gast_err m sq cube j1 j1 j2 j2 T _ M P ltac:(lra) N A) as [X _]. apply near_weaken with (1 := X). unfold uu. lra.
Qed.
(** The two Julian dates, from the datetime: the error of the mean sidereal time and of the century count. *)
Definition datestep (t : datetime) : R := if (instant t <=? instant (utc_at 6770 1 1 0 0 0 0))%Z then 1.5 / 10 ^ 9 else 3 / 10 ^ 9.
Definition centuries (t : datetime) : R := Rmax 1 (Rabs (IZR (instant t - instant (utc_at 2000 1 1 12 0 0 0))) / (36525 * 86400000000)).
Lemma times_err sq cube t d u v j1 j1f j2 j2f : pow_ok sq cube -> valid_dt t -> Rabs d <= 1000 -> utc_with_offset t d = Ok u -> utc_to_tt t = Ok v ->
  juliandate u = Ok j1 -> juliandate v = Ok j2 -> fl_juliandate u = Ok j1f -> fl_juliandate v = Ok j2f -> 1 <= centuries t <= 80.1 /\
  near (datestep t + 3.2 / 10 ^ 10 * (centuries t + 1 / 1000000)) (fl_greenwichsrt sq cube j1f) (greenwichsrt j1) /\ ap 120 (centuries t + 1 / 1000000) (fl_julian_centuries j2f) (julian_centuries j2).
Proof.
  intros P V HD EU ET J1 J2 F1 F2. unfold datestep, centuries.
  assert (Hr : (- 1000000001 <= timedelta_seconds d <= 1000000001)%Z). { unfold timedelta_seconds. pose proof (L_earth.round_half_even_near (d * 1000000)) as Q. apply Rabs_le_inv in Q, HD. split; apply le_IZR; lra. }
  pose proof (L_earth.utc_to_tt_spec t V) as ST. rewrite ET in ST. destruct ST as (RG & VV & _ & IV & _). pose proof (L_earth.tai_bounds (instant t)) as TB.
  pose proof (L_earth.utc_with_offset_spec t d V RG) as SU. rewrite EU in SU. destruct SU as (VU & _ & IU & _).
  pose proof (L_earth.juliandate_spec u VU) as S1. rewrite J1 in S1. destruct S1 as [_ S1]. pose proof (L_earth.juliandate_spec v VV) as S2. rewrite J2 in S2. destruct S2 as [_ S2].
  assert (I0 : instant (utc_at 2000 1 1 12 0 0 0) = 63082411200000000%Z) by (unfold instant, utc_at; cbn [year month day hour minute second microsecond tzinfo]; rewrite <- L_time.ymd2ord_day_number by lia; vm_compute; reflexivity).
  assert (I1 : (instant (utc_at 6770 1 1 0 0 0 0) <= 213610000000000000)%Z) by (unfold instant, utc_at; cbn [year month day hour minute second microsecond tzinfo]; rewrite <- L_time.ymd2ord_day_number by lia; vm_compute; discriminate).
  rewrite I0. set (w := IZR (instant t - 63082411200000000)). assert (EW : IZR (instant t) = w + 63082411200000000) by (unfold w; rewrite minus_IZR; ring).
  assert (RW : Rabs w <= 80.1 * (36525 * 86400000000)). { unfold L_earth.in_range in RG. rewrite L_time.first_instant_eq, L_time.last_instant_eq in RG. unfold DAY_US, MAXORDINAL in RG. assert (S3 : (86400000000 <= instant t <= 315538000000000000)%Z) by lia. destruct S3 as [X1 X2]. apply IZR_le in X1, X2. apply Rabs_le. lra. }
  assert (B1 : Rabs (j1 - (w / 86400000000 + 2451545)) <= 0.02). { rewrite S1, IU, plus_IZR, EW. destruct Hr as [X1 X2]. apply IZR_le in X1, X2. apply Rabs_le. lra. }
  assert (B2 : Rabs (j2 - (w / 86400000000 + 2451545)) <= 0.02). { assert (X : (0 <= instant v - instant t <= 1000000000)%Z) by lia. destruct X as [X1 X2]. apply IZR_le in X1, X2. rewrite minus_IZR in X1, X2. rewrite S2. apply Rabs_le. lra. }
  set (c := Rabs w / (36525 * 86400000000)). assert (HC : Rabs w = c * (36525 * 86400000000)) by (unfold c; field). assert (C80 : 0 <= c <= 80.1) by (pose proof (Rabs_pos w); rewrite HC in *; lra). pose proof (Rmax_l 1 c) as M1. pose proof (Rmax_r 1 c) as M2. set (T := Rmax 1 c) in *. assert (M3 : T <= 80.1) by (apply Rmax_lub; lra). clearbody c.
  assert (K : forall j, Rabs (j - (w / 86400000000 + 2451545)) <= 0.02 -> Rabs (j - 2451545) <= 36525 * (T + 1 / 1000000)). { intros j B. replace (j - 2451545) with ((j - (w / 86400000000 + 2451545)) + w / 86400000000) by ring. apply Rle_trans with (1 := Rabs_triang _ _). unfold Rdiv at 2. rewrite Rabs_mult, (Rabs_pos_eq (/ 86400000000)) by lra. rewrite HC. lra. }
  pose proof (K j1 B1) as K1. pose proof (K j2 B2) as K2. clear K.
  set (b := if (instant t <=? _)%Z then 1.5 / 10 ^ 9 else 3 / 10 ^ 9).
  assert (N1 : near (b + 3.2 / 10 ^ 10 * (T + 1 / 1000000)) (fl_greenwichsrt sq cube j1f) (greenwichsrt j1)).
  { destruct (C99_of_datetime sq cube u j1 j1f P VU J1 F1) as [k X]. exists k. apply Rle_trans with (1 := X). apply Rplus_le_compat; [|apply Rmult_le_compat_l; [lra|apply Rmax_lub; lra]].
    unfold b. destruct (Z.leb_spec (instant t) (instant (utc_at 6770 1 1 0 0 0 0))) as [L|L]; destruct (Rle_dec j1 4194303) as [L1|L1]; try lra. exfalso. apply L1. assert (X1 : (instant t <= 213610000000000000)%Z) by lia. apply IZR_le in X1. apply Rabs_le_inv in B1. lra. }
  assert (A2 : ap 120 (T + 1 / 1000000) (fl_julian_centuries j2f) (julian_centuries j2)).
  { destruct (C98_accuracy v j2 j2f VV J2 F2) as [E2 _]. assert (E3 : Rabs (j2f - j2) <= 40.3 / 86400000000) by lra.
    assert (K3 : Rabs (j2f - 2451545) <= 36525 * (T + 2 / 1000000)) by (replace (j2f - 2451545) with ((j2f - j2) + (j2 - 2451545)) by ring; apply Rle_trans with (1 := Rabs_triang _ _); lra).
    destruct (t_ap j2f (T + 2 / 1000000) ltac:(lra) K3) as (_ & _ & X). unfold julian_centuries. replace 2451545.0 with 2451545 by lra. replace 36525.0 with 36525 by lra. split; [lra|]. split.
    - unfold Rdiv. rewrite Rabs_mult, (Rabs_pos_eq (/ 36525)) by lra. lra.
    - apply Rabs_le_inv in E3, X. apply Rabs_le. unfold uu in *. lra. }
  split; [lra|]. split; [exact N1|exact A2].
Qed.
(** [datetime2sidereal] as it is called: local apparent sidereal time of a datetime at a longitude.  Defined exactly when it is in exact arithmetic, and within
    3e-9 rad (1.5e-9 before the year 6770) plus 3.3e-10 rad per century from J2000, for longitudes up to one turn either way. *)
Theorem C99_datetime2sidereal_defined : forall m sq cube t lon d, valid_dt t -> ((exists s, datetime2sidereal t lon d = Ok s) <-> (exists s, fl_datetime2sidereal m sq cube t lon d = Ok s)).
Proof.
  intros m sq cube t lon d V. unfold datetime2sidereal, fl_datetime2sidereal.
  destruct (utc_with_offset t d) as [u|e]; cbn [bind]; [|split; intros [s H]; discriminate]. destruct (utc_to_tt t) as [v|e]; cbn [bind].
  - pose proof (defined_same u) as DU. pose proof (defined_same v) as DV. destruct (juliandate u), (fl_juliandate u); cbn [bind]; destruct (juliandate v), (fl_juliandate v); cbn [bind]; split; intros [s H]; try discriminate; try (eexists; reflexivity); exfalso; clear H s;
    first [destruct DU as [DU _]; destruct DU as [? DU]; [eexists; reflexivity|discriminate] | destruct DU as [_ DU]; destruct DU as [? DU]; [eexists; reflexivity|discriminate] | destruct DV as [DV _]; destruct DV as [? DV]; [eexists; reflexivity|discriminate] | destruct DV as [_ DV]; destruct DV as [? DV]; [eexists; reflexivity|discriminate]].
  - destruct (juliandate u), (fl_juliandate u); cbn [bind]; split; intros [s H]; discriminate.
Qed.
Theorem C99_datetime2sidereal : forall m sq cube t lon d s sf, trig_ok m -> pow_ok sq cube -> valid_dt t -> Rabs lon <= 2 * PI -> Rabs d <= 1000 ->
  datetime2sidereal t lon d = Ok s -> fl_datetime2sidereal m sq cube t lon d = Ok sf ->
  exists k : Z, Rabs (sf - s - 2 * PI * IZR k)
    <= (if (instant t <=? instant (utc_at 6770 1 1 0 0 0 0))%Z then 1.5 / 10 ^ 9 else 3 / 10 ^ 9)
       + 3.3 / 10 ^ 10 * Rmax 1 (Rabs (IZR (instant t - instant (utc_at 2000 1 1 12 0 0 0))) / (36525 * 86400000000)).
Proof.
  intros m sq cube t lon d s sf M P V HL HD Es Ef. unfold datetime2sidereal in Es. unfold fl_datetime2sidereal in Ef.
  destruct (utc_to_tt t) as [v|e] eqn:ET; [|destruct (bind (utc_with_offset t d) juliandate); discriminate]. destruct (utc_with_offset t d) as [u|e] eqn:EU; [|discriminate]. cbn [bind] in Es, Ef.
  destruct (juliandate u) as [j1|] eqn:J1; [|discriminate]. destruct (juliandate v) as [j2|] eqn:J2; [|discriminate]. destruct (fl_juliandate u) as [j1f|] eqn:F1; [|discriminate]. destruct (fl_juliandate v) as [j2f|] eqn:F2; [|discriminate]. cbn [bind] in Es, Ef. injection Es as <-. injection Ef as <-.
  destruct (times_err sq cube t d u v j1 j1f j2 j2f P V HD EU ET J1 J2 F1 F2) as (HT & N1 & A2). fold (datestep t) (centuries t). set (T := centuries t) in *. set (b := datestep t) in *. clearbody T b.
  destruct (gast_err m sq cube j1f j1 j2f j2 (T + 1 / 1000000) _ M P ltac:(lra) N1 A2) as [N2 NB].
  set (gf := fl_apparent_sidereal_time m sq cube j1f j2f) in *. set (g := greenwich_apparent_sidereal_time j1 j2) in *. clearbody gf g.
  pose proof pi_hi as PH. pose proof uu_pos as U. pose proof uu_small as US.
  assert (S : Rabs (fl_add gf lon - (gf + lon)) <= 8 * uu). { unfold fl_add. pose proof (rnd_pow 4 (gf + lon) ltac:(lia)) as X. change (bpow radix2 4) with 16 in X. apply Rabs_le_inv in NB, HL. specialize (X ltac:(apply Rabs_le; lra)). lra. }
  assert (N3 : near (4 * (3 + 2) * uu) (fl_mod (fl_add gf lon) fl_tau) (fl_add gf lon)). { apply near_fl_mod; [apply rnd_double|]. apply Rabs_le_inv in NB, HL, S. apply Rabs_le. lra. }
  assert (N4 : near ((b + 3.2 / 10 ^ 10 * (T + 1 / 1000000) + 270 * uu * (T + 1 / 1000000)) + 8 * uu) (fl_add gf lon) (g + lon)) by (replace (fl_add gf lon) with (gf + (fl_add gf lon - gf)) by ring; apply near_plus; [exact N2|]; replace (fl_add gf lon - gf - lon) with (fl_add gf lon - (gf + lon)) by ring; exact S).
  pose proof (near_trans _ _ _ _ _ (near_trans _ _ _ _ _ N3 N4) (near_mod (g + lon))) as N5. apply near_weaken with (1 := N5). unfold uu. lra.
Qed.
(** Correctly rounded sine and cosine qualify. *)
Example C99_datetime2sidereal_hypotheses_met : (exists m, trig_ok m) /\ valid_dt (utc_at 2024 2 29 18 0 0 0) /\ exists s, datetime2sidereal (utc_at 2024 2 29 18 0 0 0) 1 0.1 = Ok s.
Proof.
  split.
  - exists {| l_sin := fun x => rnd (sin x); l_cos := fun x => rnd (cos x); l_hypot := fun x y => 0; l_sq := fun x => 0; l_radians := fun x => 0 |}. intros x _ _. cbn [l_sin l_cos]. pose proof (SIN_bound x). pose proof (COS_bound x). pose proof uu_pos. split.
    + pose proof (rnd_1 (sin x) ltac:(apply Rabs_le; lra)). lra.
    + pose proof (rnd_1 (cos x) ltac:(apply Rabs_le; lra)). lra.
  - assert (V : valid_dt (utc_at 2024 2 29 18 0 0 0)) by (vm_compute; intuition congruence). split; [exact V|]. apply C24_defined; [exact V| |rewrite Rabs_pos_eq; lra].
    rewrite L_time.first_instant_eq, L_time.last_instant_eq. unfold instant, utc_at. cbn [year month day hour minute second microsecond tzinfo]. rewrite <- L_time.ymd2ord_day_number by lia. vm_compute. intuition discriminate.
Qed.
