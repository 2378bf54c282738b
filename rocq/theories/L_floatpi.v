(** The double nearest to pi, and cosines of doubles below a quarter turn (used by C93). *)
From Coq Require Import Reals ZArith Lra Lia Psatz Machin.
From Flocq Require Import Core.
From Verif Require Import PyMath L_PyMath M_float Spec_float P_float L_float.
From Verif Require L_vin3.
Open Scope R_scope.

(** The double nearest to pi. *)
Definition cpi : R := 884279719003555 / 281474976710656.
Lemma pi_tight : cpi + / 10 ^ 16 < PI < cpi + 13 / 10 ^ 17.
Proof.
  pose proof (PI_2_3_7_ineq 9) as H. unfold cpi.
  assert (forall n x, Ratan_seq x n = x ^ (2 * n + 1) / INR (2 * n + 1)) as R1 by reflexivity.
  cbn [Nat.mul Nat.add] in H. unfold sum_f_R0, tg_alt, PI_2_3_7_tg, Ratan_seq in H.
  cbn [Nat.mul Nat.add] in H. rewrite !INR_IZR_INZ in H. cbn [Z.of_nat Pos.of_succ_nat Pos.succ] in H. lra.
Qed.
Lemma cpi_double : double cpi.
Proof.
  unfold double. replace cpi with (F2R (Float radix2 884279719003555 (-48))) by (unfold F2R, cpi; cbn [Fnum Fexp]; change (bpow radix2 (-48)) with (/ 281474976710656); lra). apply generic_format_FLT. exists (Float radix2 884279719003555 (-48)); cbn; try reflexivity; lia.
Qed.
Lemma half_double : double (cpi / 2).
Proof.
  unfold double. replace (cpi / 2) with (F2R (Float radix2 884279719003555 (-49))) by (unfold F2R, cpi; cbn [Fnum Fexp]; change (bpow radix2 (-49)) with (/ 562949953421312); lra). apply generic_format_FLT. exists (Float radix2 884279719003555 (-49)); cbn; try reflexivity; lia.
Qed.
Lemma mag_cpi : (mag radix2 cpi = 2 :> Z)%Z.
Proof. apply mag_unique_pos. unfold cpi. simpl. lra. Qed.
Lemma rnd_pi : rnd PI = cpi.
Proof.
  pose proof pi_tight as P. assert (VE : Valid_exp fexp64) by (apply FLT_exp_valid; unfold Prec_gt_0; lia). apply Rle_antisym.
  - unfold rnd. apply (round_N_le_midp radix2 fexp64); [exact cpi_double|]. rewrite succ_eq_pos by (unfold cpi; lra). rewrite ulp_neq_0 by (unfold cpi; lra). unfold cexp. rewrite mag_cpi. change (fexp64 2) with (-51)%Z. change (bpow radix2 (-51)) with (/ 2251799813685248). lra.
  - apply round_ge_generic; [exact VE|apply valid_rnd_N|exact cpi_double|lra].
Qed.
Lemma pole_double : rnd (rnd PI / 2) = cpi / 2.
Proof. rewrite rnd_pi. apply round_generic; [apply valid_rnd_N|exact half_double]. Qed.
(** How far the double quarter turn is from the real one. *)
Lemma dlt : 5 / 10 ^ 17 <= PI / 2 - cpi / 2 <= 65 / 10 ^ 18. Proof. pose proof pi_tight. lra. Qed.
Lemma dlt_uu : PI / 2 - cpi / 2 <= 6 / 10 * uu. Proof. pose proof dlt. unfold uu. lra. Qed.
Lemma pole_trig : let d := PI / 2 - cpi / 2 in sin (cpi / 2) = cos d /\ cos (cpi / 2) = sin d /\ 1 - d <= cos d <= 1 /\ 9 / 10 * d <= sin d <= d.
Proof.
  intros d. pose proof dlt as D. fold d in D. split; [unfold d; rewrite cos_shift; reflexivity|]. split; [unfold d; rewrite sin_shift; reflexivity|]. pose proof L_vin3.pi_31 as P3. clearbody d.
  assert (S : sin d <= d) by (apply Rlt_le, sin_lt_x; lra). assert (S0 : 0 <= sin d) by (apply sin_ge_0; lra).
  assert (C : 1 - d <= cos d). { pose proof (sin2_cos2 d) as Q. unfold Rsqr in Q. assert (0 <= cos d) by (apply cos_ge_0; lra). nra. }
  split; [split; [exact C|apply COS_bound]|]. split; [|exact S].
  destruct (pre_sin_bound d 0) as (L & _); try lra.  unfold sin_approx, sum_f_R0, sin_term in L. simpl in L. assert (d * d <= d) by nra. nra.
Qed.
Lemma pole_tan : 15 / 10 * 10 ^ 16 <= tan (cpi / 2) <= 3 * 10 ^ 16.
Proof.
  pose proof dlt as D. destruct pole_trig as (S & C & CB & SB). set (d := PI / 2 - cpi / 2) in *. clearbody d. unfold tan. rewrite S, C. assert (P : 0 < sin d) by lra.
  split; (apply Rmult_le_reg_r with (sin d); [exact P|]; replace (cos d / sin d * sin d) with (cos d) by (field; lra)); lra.
Qed.
Lemma mag_half : (mag radix2 (cpi / 2) = 1 :> Z)%Z.
Proof. apply mag_unique_pos. unfold cpi. simpl. lra. Qed.
Lemma rnd_half_pi : rnd (PI / 2) = cpi / 2.
Proof.
  pose proof pi_tight as P. assert (VE : Valid_exp fexp64) by (apply FLT_exp_valid; unfold Prec_gt_0; lia). apply Rle_antisym.
  - unfold rnd. apply (round_N_le_midp radix2 fexp64); [exact half_double|]. rewrite succ_eq_pos by (unfold cpi; lra). rewrite ulp_neq_0 by (unfold cpi; lra). unfold cexp. rewrite mag_half. change (fexp64 1) with (-52)%Z. change (bpow radix2 (-52)) with (/ 4503599627370496). lra.
  - apply round_ge_generic; [exact VE|apply valid_rnd_N|exact half_double|lra].
Qed.
(** Rounding a value of at most a quarter turn gives at most the double quarter turn. *)
Lemma rnd_quarter v : Rabs v <= PI / 2 -> Rabs (rnd v) <= cpi / 2.
Proof.
  intros H. assert (VE : Valid_exp fexp64) by (apply FLT_exp_valid; unfold Prec_gt_0; lia). assert (V : - (PI / 2) <= v <= PI / 2) by (unfold Rabs in H; destruct (Rcase_abs v); lra). apply Rabs_le. split.
  - rewrite <- rnd_half_pi. replace (- rnd (PI / 2)) with (rnd (- (PI / 2))); [apply round_le; [exact VE|apply valid_rnd_N|lra]|]. unfold rnd. apply round_NE_opp.
  - rewrite <- rnd_half_pi. apply round_le; [exact VE|apply valid_rnd_N|lra].
Qed.
Lemma cos_quarter v : Rabs v <= cpi / 2 -> 4 / 10 ^ 17 <= cos v.
Proof.
  intros H. pose proof dlt as D. pose proof (Rabs_pos v) as P. pose proof L_vin3.pi_31 as P3. destruct pole_trig as (_ & C & _ & S). assert (E : cos v = cos (Rabs v)) by (unfold Rabs; destruct (Rcase_abs v); [symmetry; apply cos_neg|reflexivity]). rewrite E. apply Rle_trans with (cos (cpi / 2)); [rewrite C; lra|]. apply cos_decr_1; lra.
Qed.
Lemma cos_double v : double v -> Rabs v < PI / 2 -> 4 / 10 ^ 17 <= cos v.
Proof. intros D H. apply cos_quarter. replace v with (rnd v) by (apply round_generic; [apply valid_rnd_N|exact D]). apply rnd_quarter. lra. Qed.
