(** Lemmas on Vincenty's formulas. *)
From Coq Require Import Lia Psatz.
From Verif Require Import PyMath L_PyMath M_ellipsoid M_vincenty Spec L_ell.
From Verif Require L_lox L_ecef.
Open Scope R_scope.

(** ** The angle sigma on the auxiliary sphere *)
Lemma vs_cs U1 U2 l :
  (cos U2 * sin l) ^ 2 + (cos U1 * sin U2 - sin U1 * cos U2 * cos l) ^ 2
  = 1 - (sin U1 * sin U2 + cos U1 * cos U2 * cos l) ^ 2.
Proof.
  pose proof (sc1 U1) as A. pose proof (sc1 U2) as B. pose proof (sc1 l) as C.
  replace ((cos U2 * sin l) ^ 2) with (cos U2 * cos U2 * (sin l * sin l)) by ring.
  replace (sin l * sin l) with (1 - cos l * cos l) by lra.
  transitivity (cos U2 * cos U2 * (1 - cos l * cos l) + cos U1 * cos U1 * (sin U2 * sin U2) - 2 * cos U1 * sin U2 * sin U1 * cos U2 * cos l + sin U1 * sin U1 * (cos U2 * cos U2) * cos l ^ 2); [ring|].
  replace (sin U1 * sin U1) with (1 - cos U1 * cos U1) by lra.
  transitivity (1 - (sin U1 * sin U1) * (sin U2 * sin U2) - 2 * sin U1 * sin U2 * cos U1 * cos U2 * cos l - cos U1 ^ 2 * cos U2 ^ 2 * cos l ^ 2); [|ring].
  replace (sin U1 * sin U1) with (1 - cos U1 * cos U1) by lra.
  replace (sin U2 * sin U2) with (1 - cos U2 * cos U2) by lra. ring.
Qed.
Definition v_cs (U1 U2 l : R) : R := sin U1 * sin U2 + cos U1 * cos U2 * cos l.
Lemma v_cs_sym U1 U2 l : v_cs U1 U2 l = v_cs U2 U1 l.
Proof. unfold v_cs. ring. Qed.
Lemma v_sigma_eq U1 U2 l : v_sigma U1 U2 l = atan2 (sqrt (1 - v_cs U1 U2 l ^ 2)) (v_cs U1 U2 l).
Proof. unfold v_sigma. cbv zeta. rewrite vs_cs. reflexivity. Qed.
Lemma v_cs_range U1 U2 l : -1 <= v_cs U1 U2 l <= 1.
Proof.
  pose proof (vs_cs U1 U2 l) as H. unfold v_cs.
  pose proof (pow2_ge_0 (cos U2 * sin l)). pose proof (pow2_ge_0 (cos U1 * sin U2 - sin U1 * cos U2 * cos l)).
  set (c := sin U1 * sin U2 + cos U1 * cos U2 * cos l) in *. nra.
Qed.
Lemma v_sigma_cs U1 U2 l : cos (v_sigma U1 U2 l) = v_cs U1 U2 l /\ 0 <= v_sigma U1 U2 l <= PI.
Proof.
  rewrite v_sigma_eq. pose proof (v_cs_range U1 U2 l) as R. set (c := v_cs U1 U2 l) in *.
  pose proof (sqrt_pos (1 - c ^ 2)) as S. pose proof (pow2_sqrt (1 - c ^ 2) ltac:(nra)) as Q.
  set (s := sqrt (1 - c ^ 2)) in *.
  assert (H1 : hypot c s = 1) by (apply hypot_uniq; [lra|rewrite Q; ring]).
  split; [|apply atan2_upper, S]. pose proof (hypot_cos_atan2 s c) as E. rewrite H1, Rmult_1_l in E. exact E.
Qed.
Lemma v_sigma_acos U1 U2 l : v_sigma U1 U2 l = acos (v_cs U1 U2 l).
Proof. destruct (v_sigma_cs U1 U2 l) as [E R]. rewrite <- E. symmetry. apply acos_cos. exact R. Qed.
Lemma v_sigma_sin U1 U2 l : 0 <= sin (v_sigma U1 U2 l) /\
  sin (v_sigma U1 U2 l) ^ 2 = (cos U2 * sin l) ^ 2 + (cos U1 * sin U2 - sin U1 * cos U2 * cos l) ^ 2.
Proof.
  destruct (v_sigma_cs U1 U2 l) as [E [R1 R2]]. split; [apply sin_ge_0; assumption|].
  rewrite vs_cs. rewrite sin_pow2, E. reflexivity.
Qed.
Lemma v_sigma_sym U1 U2 l : v_sigma U1 U2 l = v_sigma U2 U1 l.
Proof. rewrite !v_sigma_eq, v_cs_sym. reflexivity. Qed.
Lemma v_sigma_neg U1 U2 l : v_sigma (- U1) (- U2) l = v_sigma U1 U2 l.
Proof. rewrite !v_sigma_eq. unfold v_cs. rewrite !sin_neg, !cos_neg.
  replace (- sin U1 * - sin U2) with (sin U1 * sin U2) by ring. reflexivity. Qed.
Lemma v_sinAlpha_sym U1 U2 l : v_sinAlpha U1 U2 l = v_sinAlpha U2 U1 l.
Proof. unfold v_sinAlpha. rewrite (v_sigma_sym U1 U2). destruct (Req_EM_T _ 0); [reflexivity|]. apply f_equal2; [|reflexivity]. ring. Qed.
Lemma v_sinAlpha_neg U1 U2 l : v_sinAlpha (- U1) (- U2) l = v_sinAlpha U1 U2 l.
Proof. unfold v_sinAlpha. rewrite (v_sigma_neg U1 U2), !cos_neg. reflexivity. Qed.
Lemma v_c2_sym U1 U2 l a : v_cos2sigmam U1 U2 l a = v_cos2sigmam U2 U1 l a.
Proof. unfold v_cos2sigmam. rewrite (v_sigma_sym U1 U2). apply f_equal2; [reflexivity|]. apply f_equal2; [ring|reflexivity]. Qed.
Lemma v_c2_neg U1 U2 l a : v_cos2sigmam (- U1) (- U2) l a = v_cos2sigmam U1 U2 l a.
Proof. unfold v_cos2sigmam. rewrite (v_sigma_neg U1 U2), !sin_neg. apply f_equal2; [reflexivity|]. apply f_equal2; [ring|reflexivity]. Qed.
Lemma vdist_loop_sym n : forall f L U1 U2 l s, vdist_loop n f L U1 U2 l s = vdist_loop n f L U2 U1 l s.
Proof.
  induction n as [|n IH]; intros; [reflexivity|]. cbn [vdist_loop].
  rewrite (v_sigma_sym U1 U2), (v_sinAlpha_sym U1 U2), (v_c2_sym U1 U2), IH. reflexivity.
Qed.
Lemma vdist_loop_neg n : forall f L U1 U2 l s, vdist_loop n f L (- U1) (- U2) l s = vdist_loop n f L U1 U2 l s.
Proof.
  induction n as [|n IH]; intros; [reflexivity|]. cbn [vdist_loop].
  rewrite (v_sigma_neg U1 U2), (v_sinAlpha_neg U1 U2), (v_c2_neg U1 U2), IH. reflexivity.
Qed.

(** ** Longitudes *)
Lemma lon_gap_wrap l1 l2 : lon_gap l1 l2 = L_lox.wrapdist (l2 - l1).
Proof.
  pose proof PI_RGT_0 as P. assert (P2 : 0 < 2 * PI) by lra. unfold lon_gap. cbv zeta.
  destruct (py_mod_congr l1 (2 * PI) P2) as [k1 E1]. destruct (py_mod_congr l2 (2 * PI) P2) as [k2 E2].
  pose proof (py_mod_range l1 (2 * PI) P2). pose proof (py_mod_range l2 (2 * PI) P2).
  set (m1 := py_mod l1 (2 * PI)) in *. set (m2 := py_mod l2 (2 * PI)) in *.
  assert (E : l2 - l1 = (m2 - m1) + IZR (k1 - k2) * (2 * PI)) by (rewrite minus_IZR; lra).
  rewrite E, L_lox.wrapdist_period.
  assert (B : Rabs (m2 - m1) < 2 * PI) by (apply Rabs_def1; lra).
  destruct (Rlt_dec PI (Rabs (m2 - m1))) as [H1|H1]; [|rewrite L_lox.wrapdist_small; [reflexivity|lra]].
  destruct (Rle_lt_dec 0 (m2 - m1)) as [S|S].
  - rewrite Rabs_right in * by lra.
    replace (m2 - m1) with (m2 - m1 - 2 * PI + IZR 1 * (2 * PI)) at 2 by lra.
    rewrite L_lox.wrapdist_period, L_lox.wrapdist_small by (apply Rabs_le; lra). rewrite Rabs_left by lra. ring.
  - rewrite Rabs_left in * by lra.
    replace (m2 - m1) with (m2 - m1 + 2 * PI + IZR (-1) * (2 * PI)) at 2 by lra.
    rewrite L_lox.wrapdist_period, L_lox.wrapdist_small by (apply Rabs_le; lra). rewrite Rabs_right by lra. ring.
Qed.
Lemma lon_gap_range l1 l2 : 0 <= lon_gap l1 l2 <= PI.
Proof. rewrite lon_gap_wrap. apply L_lox.wrapdist_spec. Qed.
Lemma lon_gap_sym l1 l2 : lon_gap l1 l2 = lon_gap l2 l1.
Proof. rewrite !lon_gap_wrap, <- L_lox.wrapdist_opp. f_equal. ring. Qed.
Lemma lon_gap_shift l1 l2 k1 k2 d : lon_gap (l1 + IZR k1 * (2 * PI) + d) (l2 + IZR k2 * (2 * PI) + d) = lon_gap l1 l2.
Proof.
  rewrite !lon_gap_wrap.
  replace (l2 + IZR k2 * (2 * PI) + d - (l1 + IZR k1 * (2 * PI) + d)) with (l2 - l1 + IZR (k2 - k1) * (2 * PI)) by (rewrite minus_IZR; ring).
  apply L_lox.wrapdist_period.
Qed.
(** sin and cos of the gap. *)
Lemma cos_gap l1 l2 : cos (lon_gap l1 l2) = cos (l2 - l1).
Proof.
  rewrite lon_gap_wrap. destruct (L_lox.wrapdist_spec (l2 - l1)) as (_ & [k ->] & _).
  unfold Rabs. destruct (Rcase_abs _); [rewrite cos_neg|];
  replace (l2 - l1 - IZR k * (2 * PI)) with (l2 - l1 + IZR (- k) * (2 * PI)) by (rewrite opp_IZR; ring); apply cos_period_Z.
Qed.
Lemma sin_gap l1 l2 : sin (lon_gap l1 l2) = Rabs (sin (l2 - l1)).
Proof.
  assert (S : 0 <= sin (lon_gap l1 l2)) by (destruct (lon_gap_range l1 l2); apply sin_ge_0; lra).
  pose proof (cos_gap l1 l2) as C. pose proof (sc1 (lon_gap l1 l2)) as A. pose proof (sc1 (l2 - l1)) as B. rewrite C in A.
  assert (Q : sin (lon_gap l1 l2) * sin (lon_gap l1 l2) = Rabs (sin (l2 - l1)) * Rabs (sin (l2 - l1))).
  { rewrite <- Rabs_mult, (Rabs_right (sin (l2 - l1) * sin (l2 - l1))) by (apply Rle_ge, Rle_0_sqr). lra. }
  pose proof (Rabs_pos (sin (l2 - l1))). nra.
Qed.

(** ** Latitude handling *)
Lemma out_of_range_false lat : lat_out_of_range lat = false <-> - (PI/2) <= lat <= PI/2.
Proof.
  unfold lat_out_of_range. pose proof PI_RGT_0. destruct (Rlt_dec (PI / 2) (Rabs lat)) as [H1|H1]; split; intros H2; try discriminate; try reflexivity.
  - exfalso. apply Rlt_not_le in H1. apply H1. apply Rabs_le. exact H2.
  - apply Rnot_lt_le in H1. revert H1. unfold Rabs. destruct (Rcase_abs lat); lra.
Qed.
Lemma nudge_id lat : Rabs lat <= PI/2 - 1 / 10 ^ 10 -> nudge_pole lat = lat.
Proof.
  intros H. unfold nudge_pole. destruct (Rlt_dec _ _) as [H1|H1]; [|reflexivity]. exfalso.
  rewrite Rabs_right in H1 by lra. lra.
Qed.
Lemma ten10 : 0 < 1 / 10 ^ 10 < 1 / 1000.
Proof. lra. Qed.
Lemma pi_gt3 : 3 < PI. Proof. pose proof PI2_3_2. pose proof PI2_RGT_0. unfold PI2 in *. lra. Qed.
Lemma nudge_range lat : - (PI/2) <= lat <= PI/2 -> - (PI/2 - 1 / 10 ^ 10) <= nudge_pole lat <= PI/2 - 1 / 10 ^ 10.
Proof.
  intros H. pose proof pi_gt3 as P3. pose proof ten10 as T10. set (t := 1 / 10 ^ 10) in *. unfold nudge_pole. fold t.
  assert (A : Rabs lat <= PI/2) by (apply Rabs_le; exact H).
  destruct (Rlt_dec _ _) as [H1|H1].
  - unfold sign. destruct (Rlt_dec lat 0); [lra|]. destruct (Rlt_dec 0 lat); lra.
  - apply Rnot_lt_le in H1. rewrite Rabs_right in H1 by lra. revert H1. unfold Rabs. destruct (Rcase_abs lat); lra.
Qed.
Lemma nudge_opp lat : nudge_pole (- lat) = - nudge_pole lat.
Proof. unfold nudge_pole. rewrite Rabs_Ropp, sign_opp. destruct (Rlt_dec _ _); ring. Qed.
Lemma out_opp lat : lat_out_of_range (- lat) = lat_out_of_range lat.
Proof. unfold lat_out_of_range. rewrite Rabs_Ropp. reflexivity. Qed.
Lemma reduced_opp f lat : reduced_lat f (- lat) = - reduced_lat f lat.
Proof. unfold reduced_lat. rewrite tan_neg, <- atan_opp. f_equal. ring. Qed.
Lemma reduced_range f lat : - PI/2 < reduced_lat f lat < PI/2.
Proof. apply atan_bound'. Qed.
Lemma reduced_0 f : reduced_lat f 0 = 0.
Proof. unfold reduced_lat. rewrite tan_0, Rmult_0_r. apply atan_0. Qed.
Lemma reduced_sphere lat : - PI/2 < lat < PI/2 -> reduced_lat 0 lat = lat.
Proof. intros. unfold reduced_lat. replace ((1 - 0) * tan lat) with (tan lat) by ring. apply atan_tan_id. exact H. Qed.

(** ** The azimuth of the great circle from (U1, l1) to (U2, l2) *)
Lemma py_mod_diff l1 l2 : sin (py_mod l2 (2 * PI) - py_mod l1 (2 * PI)) = sin (l2 - l1).
Proof.
  pose proof PI_RGT_0. destruct (py_mod_congr l1 (2 * PI) ltac:(lra)) as [k1 ->]. destruct (py_mod_congr l2 (2 * PI) ltac:(lra)) as [k2 ->].
  replace (l2 + IZR k2 * (2 * PI) - (l1 + IZR k1 * (2 * PI))) with (l2 - l1 + IZR (k2 - k1) * (2 * PI)) by (rewrite minus_IZR; ring).
  apply sin_period_Z.
Qed.
(** Signed longitude difference as used for the azimuth. *)
Definition v_signed (l1 l2 lamb : R) : R :=
  if Rlt_dec (sign (sin (l2 - l1)) * sign (sin (Rabs lamb))) 0 then - Rabs lamb else Rabs lamb.
Lemma vdist_azimuth_eq U1 U2 l1 l2 lamb :
  vdist_azimuth U1 U2 l1 l2 lamb =
  py_mod (atan2 (cos U2 * sin (v_signed l1 l2 lamb)) (cos U1 * sin U2 - sin U1 * cos U2 * cos (v_signed l1 l2 lamb))) tau.
Proof. unfold vdist_azimuth. cbv zeta. rewrite py_mod_diff. reflexivity. Qed.
Lemma signed_gap l1 l2 : sin (v_signed l1 l2 (lon_gap l1 l2)) = sin (l2 - l1) /\ cos (v_signed l1 l2 (lon_gap l1 l2)) = cos (l2 - l1).
Proof.
  destruct (lon_gap_range l1 l2) as [G1 G2]. unfold v_signed. rewrite (Rabs_right (lon_gap l1 l2)) by lra.
  rewrite sin_gap. set (s := sin (l2 - l1)). 
  assert (E : sign s * sign (Rabs s) < 0 <-> s < 0).
  { unfold sign, Rabs. destruct (Rcase_abs s); destruct (Rlt_dec s 0); try lra; destruct (Rlt_dec (- s) 0); try lra; try (destruct (Rlt_dec 0 (- s)); lra);
    destruct (Rlt_dec 0 s); try lra. }
  destruct (Rlt_dec (sign s * sign (Rabs s)) 0) as [H|H].
  - rewrite sin_neg, cos_neg, sin_gap, cos_gap. fold s. split; [|reflexivity]. apply E in H. rewrite Rabs_left by lra. ring.
  - rewrite sin_gap, cos_gap. fold s. split; [|reflexivity]. apply Rabs_right. apply Rle_ge, Rnot_lt_le. intros X. apply H, E, X.
Qed.
