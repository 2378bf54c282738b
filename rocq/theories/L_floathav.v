(** Lemmas for C97: the haversine formula in binary64. *)
From Coq Require Import Reals ZArith Lra Lia Psatz.
From Flocq Require Import Core.
From Verif Require Import PyMath L_PyMath M_ellipsoid M_haversine M_float M_floatenu M_floatgeo M_floathav Spec Spec_float Spec_hav P_float L_float P_rounding.
From Verif Require L_vin3.
Open Scope R_scope.
#[local] Instance prec53 : Prec_gt_0 53 := eq_refl.
#[local] Instance vexp : Valid_exp fexp64 := FLT_exp_valid (-1074) 53.
#[local] Instance mexp : Monotone_exp fexp64 := FLT_exp_monotone (-1074) 53.

(** Half an ulp, for values up to a power of two. *)
Lemma rnd_pow e v : (-1000 <= e)%Z -> Rabs v <= bpow radix2 e -> Rabs (rnd v - v) <= uu / 2 * bpow radix2 e.
Proof.
  intros He HV. destruct (Req_dec v 0) as [->|N].
  { rewrite (rnd_id 0 (generic_format_0 _ _)), Rminus_0_r, Rabs_R0. pose proof uu_pos. pose proof (bpow_gt_0 radix2 e). nra. }
  destruct HV as [L|E].
  - pose proof (error_le_half_ulp radix2 fexp64 (fun x => negb (Z.even x)) v) as H. change (Rabs (rnd v - v) <= / 2 * ulp radix2 fexp64 v) in H. apply Rle_trans with (1 := H).
    assert (U : ulp radix2 fexp64 v <= bpow radix2 (-53) * bpow radix2 e).
    { rewrite <- bpow_plus, ulp_neq_0 by exact N. apply bpow_le. unfold cexp, fexp64, FLT_exp. pose proof (mag_le_bpow radix2 v e N L). lia. }
    replace (bpow radix2 (-53)) with uu in U by (unfold uu; cbn; lra). lra.
  - rewrite rnd_id; [rewrite Rminus_diag_eq, Rabs_R0 by reflexivity; pose proof uu_pos; pose proof (bpow_gt_0 radix2 e); nra|]. unfold double.
    unfold Rabs in E. destruct (Rcase_abs v) as [_|_].
    + replace v with (- bpow radix2 e) by lra. apply generic_format_opp, generic_format_bpow. unfold fexp64, FLT_exp. lia.
    + rewrite E. apply generic_format_bpow. unfold fexp64, FLT_exp. lia.
Qed.
Lemma rnd_half v : Rabs v <= 1 / 2 -> Rabs (rnd v - v) <= uu / 4.
Proof. intros H. pose proof (rnd_pow (-1) v ltac:(lia)) as P. replace (bpow radix2 (-1)) with (1 / 2) in P by (cbn; lra). specialize (P H). lra. Qed.
Lemma rnd_1 v : Rabs v <= 1 -> Rabs (rnd v - v) <= uu / 2.
Proof. intros H. pose proof (rnd_pow 0 v ltac:(lia)) as P. replace (bpow radix2 0) with 1 in P by (cbn; lra). specialize (P H). lra. Qed.
Lemma rnd_2 v : Rabs v <= 2 -> Rabs (rnd v - v) <= uu.
Proof. intros H. pose proof (rnd_pow 1 v ltac:(lia)) as P. replace (bpow radix2 1) with 2 in P by (cbn; lra). specialize (P H). lra. Qed.
Lemma rnd_4 v : Rabs v <= 4 -> Rabs (rnd v - v) <= 2 * uu.
Proof. intros H. pose proof (rnd_pow 2 v ltac:(lia)) as P. replace (bpow radix2 2) with 4 in P by (cbn; lra). specialize (P H). lra. Qed.
Lemma rnd_16 v : Rabs v <= 16 -> Rabs (rnd v - v) <= 8 * uu.
Proof. intros H. pose proof (rnd_pow 4 v ltac:(lia)) as P. replace (bpow radix2 4) with 16 in P by (cbn; lra). specialize (P H). lra. Qed.
Lemma d1 : double 1. Proof. apply (double_int 1). reflexivity. Qed.
Lemma d0 : double 0. Proof. apply (double_int 0). reflexivity. Qed.
Lemma d2 : double 2. Proof. apply (double_int 2). reflexivity. Qed.
Lemma rnd_01 v : 0 <= v <= 1 -> 0 <= rnd v <= 1.
Proof. intros [A B]. apply rnd_le in A, B. rewrite (rnd_id 0 d0) in A. rewrite (rnd_id 1 d1) in B. lra. Qed.
Lemma rnd_11 v : -1 <= v <= 1 -> -1 <= rnd v <= 1.
Proof. intros [A B]. apply rnd_le in A, B. rewrite (rnd_id 1 d1) in B. replace (-1) with (- (1)) in A at 1 by ring. rewrite rnd_opp, (rnd_id 1 d1) in A. lra. Qed.
(** Halving is exact but for underflow. *)
Lemma rnd_halve t : double t -> Rabs (rnd (t / 2) - t / 2) <= uu * tny.
Proof.
  intros D. destruct (Rle_lt_dec tny (Rabs t)) as [L|L].
  - rewrite rnd_id; [rewrite Rminus_diag_eq, Rabs_R0 by reflexivity; pose proof uu_pos; pose proof tny_pos; nra|]. unfold double. replace (t / 2) with (t * bpow radix2 (-1)) by (cbn; lra).
    assert (G : (-1000 < mag radix2 t)%Z) by (apply mag_gt_bpow; exact L). assert (TZ : t <> 0) by (intros ->; rewrite Rabs_R0 in L; pose proof tny_pos; lra).
    pose proof D as D'. unfold double, generic_format in D'. set (mm := Ztrunc (scaled_mantissa radix2 fexp64 t)) in D'. set (ee := cexp radix2 fexp64 t) in D'.
    assert (E : t * bpow radix2 (-1) = F2R (Float radix2 mm (ee - 1))) by (rewrite D'; unfold F2R; cbn [Fnum Fexp]; rewrite Rmult_assoc, <- bpow_plus; reflexivity).
    rewrite E. apply generic_format_F2R. intros _. rewrite <- E. unfold cexp. rewrite mag_mult_bpow by exact TZ. unfold ee, cexp, fexp64, FLT_exp. lia.
  - apply rnd_err; [|lra]. unfold Rdiv. rewrite Rabs_mult, (Rabs_pos_eq (/ 2)) by lra. pose proof tny_pos. pose proof (Rabs_pos t). lra.
Qed.
Lemma tny_u : uu * tny <= uu / 1000000.
Proof. assert (tny <= / 1000000) by (unfold tny; apply Rle_trans with (bpow radix2 (-20)); [apply bpow_le; lia|cbn; lra]). pose proof uu_pos. nra. Qed.

(** Just above one. *)
Lemma succ_1 : succ radix2 fexp64 1 = 1 + 2 * uu.
Proof. rewrite succ_eq_pos by lra. replace 1 with (bpow radix2 0) at 2 by reflexivity. rewrite ulp_bpow. replace (bpow radix2 (fexp64 (0 + 1))) with (2 * uu); [reflexivity|unfold uu; cbn; lra]. Qed.
Lemma d1u : double (1 + 2 * uu). Proof. rewrite <- succ_1. apply generic_format_succ; [exact vexp|exact d1]. Qed.
Lemma succ_1u : succ radix2 fexp64 (1 + 2 * uu) = 1 + 4 * uu.
Proof.
  pose proof uu_pos as U. pose proof uu_small as U'. rewrite succ_eq_pos by lra. rewrite ulp_neq_0 by lra. unfold cexp. assert (M : (mag radix2 (1 + 2 * uu) = 1 :> Z)%Z) by (apply mag_unique; rewrite Rabs_pos_eq by lra; cbn; lra).
  rewrite M. replace (bpow radix2 (fexp64 1)) with (2 * uu); [ring|unfold uu; cbn; lra].
Qed.
Lemma rnd_above v : v < 1 + 3 * uu -> rnd v <= 1 + 2 * uu.
Proof. intros H. unfold rnd. apply round_N_le_midp; [exact vexp|exact d1u|]. rewrite succ_1u. lra. Qed.
Lemma rnd_sqrt_above v : v <= 1 + 2 * uu -> rnd (sqrt v) <= 1.
Proof.
  intros H. pose proof uu_pos as U. unfold rnd. apply round_N_le_midp; [exact vexp|exact d1|]. rewrite succ_1. replace ((1 + (1 + 2 * uu)) / 2) with (1 + uu) by field.
  apply Rle_lt_trans with (sqrt (1 + 2 * uu)); [apply sqrt_le_1_alt; exact H|]. rewrite <- (sqrt_pow2 (1 + uu)) by lra. apply sqrt_lt_1_alt. nra.
Qed.

(** ** The computed sum *)
Section Sum.
Variable k : libm3.
Hypothesis M : libm3_ok k.
Let m := l_base (l_two k).
Lemma cosr x : double x -> Rabs x <= 13 -> l_cos m x = rnd (cos x).
Proof. intros D H. destruct M as (_ & C & _). now apply C. Qed.
Lemma hav_range x : double x -> Rabs x <= 13 -> 0 <= fl_haversine k x <= 1.
Proof.
  intros D H. unfold fl_haversine. fold m. rewrite cosr by assumption. pose proof (rnd_11 (cos x) (COS_bound x)) as C. unfold fl_sub, fl_div. apply rnd_01. assert (A : 0 <= 1 - rnd (cos x) <= 2) by lra. destruct A as [A B]. apply rnd_le in A, B. rewrite (rnd_id 0 d0) in A. rewrite (rnd_id 2 d2) in B. lra.
Qed.
(** Error of the haversine of a double. *)
Lemma hav_err x : double x -> Rabs x <= 13 -> Rabs (fl_haversine k x - haversine x) <= 751 / 1000 * uu.
Proof.
  intros D H. unfold fl_haversine, haversine, fl_sub, fl_div. fold m. rewrite cosr by assumption. pose proof (COS_bound x) as C. pose proof (rnd_11 (cos x) C) as CR. assert (E1 : Rabs (rnd (cos x) - cos x) <= uu / 2) by (apply rnd_1, Rabs_le; lra).
  set (c := rnd (cos x)) in *. assert (E2 : Rabs (rnd (1 - c) - (1 - c)) <= uu) by (apply rnd_2, Rabs_le; lra). pose proof (rnd_halve (rnd (1 - c)) (rnd_double _)) as E3. pose proof tny_u. set (t := rnd (1 - c)) in *.
  apply Rabs_le_inv in E1, E2, E3. apply Rabs_le. lra.
Qed.
Definition hsum (l0 l1 n0 n1 : R) : R :=
  fl_add (fl_haversine k (fl_sub l0 l1)) (fl_mul (fl_mul (l_cos m l0) (l_cos m l1)) (fl_haversine k (fl_sub n0 n1))).

Section Pts.
Variables l0 l1 n0 n1 : R.
Hypothesis D0 : double l0. Hypothesis D1 : double l1.
Hypothesis L0 : Rabs l0 <= PI / 2. Hypothesis L1 : Rabs l1 <= PI / 2.
Hypothesis N : Rabs (n0 - n1) <= 1257 / 100.
Let pi4 := L_vin3.pi_315.
Lemma cc v : Rabs v <= PI / 2 -> 0 <= cos v <= 1.
Proof. intros H. apply Rabs_le_inv in H. split; [apply cos_ge_0; lra|apply COS_bound]. Qed.
Lemma abs4 : Rabs (l0 - l1) <= PI. Proof. apply Rabs_le_inv in L0, L1. apply Rabs_le. lra. Qed.
Lemma sub_l : Rabs (fl_sub l0 l1 - (l0 - l1)) <= 2 * uu /\ Rabs (fl_sub l0 l1) <= 13.
Proof. pose proof abs4 as A. pose proof pi4. assert (E : Rabs (fl_sub l0 l1 - (l0 - l1)) <= 2 * uu) by (apply rnd_4; lra). split; [exact E|]. pose proof uu_small. apply Rabs_le_inv in E, A. apply Rabs_le. lra. Qed.
Lemma sub_n : Rabs (fl_sub n0 n1 - (n0 - n1)) <= 8 * uu /\ Rabs (fl_sub n0 n1) <= 13.
Proof. assert (E : Rabs (fl_sub n0 n1 - (n0 - n1)) <= 8 * uu) by (apply rnd_16; lra). split; [exact E|]. pose proof uu_small. apply Rabs_le_inv in E, N. apply Rabs_le. lra. Qed.
Lemma ccr v : double v -> Rabs v <= PI / 2 -> l_cos m v = rnd (cos v) /\ 0 <= rnd (cos v) <= 1 /\ Rabs (rnd (cos v) - cos v) <= uu / 2.
Proof. intros D H. pose proof pi4. split; [apply cosr; [exact D|lra]|]. pose proof (cc v H) as C. split; [now apply rnd_01|apply rnd_1, Rabs_le; lra]. Qed.

(** The product of the cosines times a haversine is at most the product. *)
Lemma prod_bounds : let q := fl_mul (l_cos m l0) (l_cos m l1) in let p := fl_mul q (fl_haversine k (fl_sub n0 n1)) in 0 <= p <= q /\ 0 <= q <= 1.
Proof.
  cbv zeta. destruct (ccr l0 D0 L0) as (E0 & R0 & _). destruct (ccr l1 D1 L1) as (E1 & R1 & _). rewrite E0, E1. unfold fl_mul.
  assert (Q : 0 <= rnd (rnd (cos l0) * rnd (cos l1)) <= 1) by (apply rnd_01; split; [apply Rmult_le_pos; lra|]; rewrite <- (Rmult_1_l 1); apply Rmult_le_compat; lra).
  split; [|exact Q]. destruct sub_n as (_ & SN). pose proof (hav_range (fl_sub n0 n1) (rnd_double _) SN) as H. set (h := fl_haversine k _) in *. set (q := rnd (rnd (cos l0) * rnd (cos l1))) in *. clearbody h.
  assert (A : 0 <= q * h) by (apply Rmult_le_pos; lra). assert (B : q * h <= q) by nra. apply rnd_le in A, B. rewrite (rnd_id 0 d0) in A. rewrite (rnd_id q (rnd_double _)) in B. lra.
Qed.
Lemma cos2_third : cos 2 <= - (1 / 4).
Proof. pose proof (pre_cos_bound 2 0 ltac:(lra) ltac:(lra)) as (_ & H). unfold cos_approx, cos_term in H. simpl in H. lra. Qed.
Lemma cos_far d : 2 < Rabs d <= PI -> cos d <= - (1 / 4).
Proof. intros [A B]. assert (E : cos d = cos (Rabs d)) by (unfold Rabs; destruct (Rcase_abs d); [now rewrite cos_neg|reflexivity]). rewrite E. apply Rle_trans with (cos 2); [|apply cos2_third]. apply cos_decr_1; lra. Qed.

(** It never exceeds one by more than one ulp. *)
Lemma hsum_le : 0 <= hsum l0 l1 n0 n1 <= 1 + 2 * uu.
Proof.
  pose proof uu_pos as U0. pose proof uu_small as U1. destruct prod_bounds as ((P0 & PQ) & Q0 & Q1). destruct sub_l as (SE & SL). pose proof abs4 as A4. destruct (ccr l0 D0 L0) as (E0 & R0 & X0). destruct (ccr l1 D1 L1) as (E1 & R1 & X1).
  pose proof (hav_range (fl_sub l0 l1) (rnd_double _) SL) as HR. unfold hsum. unfold fl_add. split.
  { apply Rle_trans with (rnd 0); [rewrite (rnd_id 0 d0); lra|]. apply rnd_le. lra. }
  apply rnd_above. apply Rle_lt_trans with (fl_haversine k (fl_sub l0 l1) + fl_mul (l_cos m l0) (l_cos m l1)); [lra|]. clear P0 PQ.
  pose proof (hav_err (fl_sub l0 l1) (rnd_double _) SL) as HE. pose proof (cos_lip (fl_sub l0 l1) (l0 - l1)) as CL. set (A := fl_sub l0 l1) in *. set (d := l0 - l1) in *.
  assert (PP : cos l0 * cos l1 <= (1 + cos d) / 2). { unfold d. pose proof (COS_bound (l0 + l1)) as CB. rewrite cos_plus in CB. rewrite cos_minus. lra. }
  pose proof (cc l0 L0) as C0. pose proof (cc l1 L1) as C1. rewrite E0, E1 in *. set (c0 := cos l0) in *. set (c1 := cos l1) in *. set (r0 := rnd c0) in *. set (r1 := rnd c1) in *. clearbody c0 c1 r0 r1.
  apply Rabs_le_inv in X0, X1, HE. unfold haversine in HE. set (h := fl_haversine k A) in *. clearbody h. unfold fl_mul in *.
  assert (RR : r0 * r1 <= c0 * c1 + uu / 2 * (c0 + c1) + uu ^ 2) by (apply Rle_trans with ((c0 + uu / 2) * (c1 + uu / 2)); [apply Rmult_le_compat; lra|clear - U0; nra]). assert (UU : uu ^ 2 <= uu / 1000) by (clear - U0 U1; nra). assert (CC : c0 + c1 <= 1 + c0 * c1) by (clear - C0 C1; nra). assert (RP : 0 <= r0 * r1) by (apply Rmult_le_pos; lra).
  assert (R1' : r0 * r1 <= 1) by (rewrite <- (Rmult_1_l 1); apply Rmult_le_compat; lra).
  destruct (Rle_lt_dec (Rabs d) 2) as [S|S].
  - assert (E2 : Rabs (A - d) <= uu) by (apply rnd_2; exact S). assert (E3 : Rabs (rnd (r0 * r1) - r0 * r1) <= uu / 2) by (apply rnd_1, Rabs_le; lra).
    assert (CL' : Rabs (cos A - cos d) <= uu) by lra. apply Rabs_le_inv in CL', E3. set (z := rnd (r0 * r1)) in *. clearbody z. assert (UC : uu / 2 * (c0 + c1) <= uu / 2 * 2) by (apply Rmult_le_compat_l; lra). set (P := c0 * c1) in *. set (w := uu / 2 * (c0 + c1)) in *. clearbody P w. lra.
  - pose proof (cos_far d (conj S A4)) as CF. assert (P3 : c0 * c1 <= 3 / 8) by lra. assert (UC : uu / 2 * (c0 + c1) <= uu / 2 * (11 / 8)) by (apply Rmult_le_compat_l; lra). assert (U3 : r0 * r1 <= 1 / 2) by lra. assert (E3 : Rabs (rnd (r0 * r1) - r0 * r1) <= uu / 4) by (apply rnd_half, Rabs_le; lra).
    assert (CL' : Rabs (cos A - cos d) <= 2 * uu) by lra. apply Rabs_le_inv in CL', E3. set (z := rnd (r0 * r1)) in *. clearbody z. set (P := c0 * c1) in *. set (w := uu / 2 * (c0 + c1)) in *. clearbody P w. lra.
Qed.
(** Its error. *)
Lemma hsum_err : Rabs (hsum l0 l1 n0 n1 - (haversine (l0 - l1) + cos l0 * cos l1 * haversine (n0 - n1))) <= 10 * uu.
Proof.
  pose proof uu_pos as U0. pose proof uu_small as U1. pose proof hsum_le as HH. destruct prod_bounds as ((P0 & PQ) & Q0 & Q1). destruct sub_l as (SE & SL). destruct sub_n as (NE & NL). destruct (ccr l0 D0 L0) as (E0 & R0 & X0). destruct (ccr l1 D1 L1) as (E1 & R1 & X1).
  pose proof (hav_range (fl_sub l0 l1) (rnd_double _) SL) as HR. pose proof (hav_err (fl_sub l0 l1) (rnd_double _) SL) as HE. pose proof (hav_range (fl_sub n0 n1) (rnd_double _) NL) as HR'. pose proof (hav_err (fl_sub n0 n1) (rnd_double _) NL) as HE'.
  pose proof (cos_lip (fl_sub l0 l1) (l0 - l1)) as CL. pose proof (cos_lip (fl_sub n0 n1) (n0 - n1)) as CN. pose proof (cc l0 L0) as C0. pose proof (cc l1 L1) as C1. pose proof (COS_bound (n0 - n1)) as CB.
  unfold hsum in *. set (h := fl_haversine k (fl_sub l0 l1)) in *. set (g := fl_haversine k (fl_sub n0 n1)) in *. rewrite E0, E1 in *. unfold haversine in *. set (q := fl_mul (rnd (cos l0)) (rnd (cos l1))) in *. set (p := fl_mul q g) in *.
  assert (F1 : Rabs (q - rnd (cos l0) * rnd (cos l1)) <= uu / 2) by (apply rnd_1, Rabs_le; split; [pose proof (Rmult_le_pos _ _ (proj1 R0) (proj1 R1)); lra|rewrite <- (Rmult_1_l 1); apply Rmult_le_compat; lra]).
  assert (F2 : Rabs (p - q * g) <= uu / 2) by (apply rnd_1, Rabs_le; split; [pose proof (Rmult_le_pos _ _ Q0 (proj1 HR')); lra|rewrite <- (Rmult_1_l 1); apply Rmult_le_compat; lra]).
  assert (F3 : Rabs (fl_add h p - (h + p)) <= uu) by (apply rnd_2, Rabs_le; lra).
  set (s := fl_add h p) in *. set (r0 := rnd (cos l0)) in *. set (r1 := rnd (cos l1)) in *. set (c0 := cos l0) in *. set (c1 := cos l1) in *. set (gx := (1 - cos (n0 - n1)) / 2). assert (GX : 0 <= gx <= 1) by (unfold gx; lra).
  assert (HG : Rabs (g - gx) <= 4751 / 1000 * uu). { unfold gx. assert (V : Rabs (cos (fl_sub n0 n1) - cos (n0 - n1)) <= 8 * uu) by lra. apply Rabs_le_inv in V, HE'. apply Rabs_le. lra. }
  assert (HL : Rabs (h - (1 - cos (l0 - l1)) / 2) <= 1751 / 1000 * uu). { assert (V : Rabs (cos (fl_sub l0 l1) - cos (l0 - l1)) <= 2 * uu) by lra. apply Rabs_le_inv in V, HE. apply Rabs_le. lra. }
  assert (QQ : Rabs (q - c0 * c1) <= 1501 / 1000 * uu). { replace (q - c0 * c1) with ((q - r0 * r1) + ((r0 - c0) * r1 + c0 * (r1 - c1))) by ring. assert (Rabs ((r0 - c0) * r1) <= uu / 2 * 1) by (rewrite Rabs_mult; apply Rmult_le_compat; try apply Rabs_pos; [exact X0|rewrite Rabs_pos_eq; lra]). assert (Rabs (c0 * (r1 - c1)) <= 1 * (uu / 2)) by (rewrite Rabs_mult; apply Rmult_le_compat; try apply Rabs_pos; [rewrite Rabs_pos_eq; lra|exact X1]).
    apply Rle_trans with (1 := Rabs_triang _ _). pose proof (Rabs_triang ((r0 - c0) * r1) (c0 * (r1 - c1))). lra. }
  replace (s - ((1 - cos (l0 - l1)) / 2 + c0 * c1 * gx)) with ((s - (h + p)) + ((h - (1 - cos (l0 - l1)) / 2) + ((p - q * g) + ((q - c0 * c1) * g + c0 * c1 * (g - gx))))) by ring.
  assert (T1 : Rabs ((q - c0 * c1) * g) <= 1501 / 1000 * uu * 1) by (rewrite Rabs_mult; apply Rmult_le_compat; try apply Rabs_pos; [exact QQ|rewrite Rabs_pos_eq; lra]).
  assert (T2 : Rabs (c0 * c1 * (g - gx)) <= 1 * (4751 / 1000 * uu)) by (rewrite Rabs_mult; apply Rmult_le_compat; try apply Rabs_pos; [rewrite Rabs_pos_eq by (apply Rmult_le_pos; lra); rewrite <- (Rmult_1_l 1); apply Rmult_le_compat; lra|exact HG]).
  apply Rabs_le_inv in F2, F3, HL, T1, T2. apply Rabs_le. lra.
Qed.
End Pts.
End Sum.
