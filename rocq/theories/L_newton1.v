(** The departure azimuth on the auxiliary sphere as a function of the longitude
    difference there, and its rate of change. *)
From Coq Require Import Reals Lra Lia Psatz.
From Coquelicot Require Import Coquelicot.
From Verif Require Import PyMath L_PyMath L_vincenty3 L_vin1 L_vin3.
From Verif Require L_vincenty2.
Open Scope R_scope.

Lemma cos_order U1 U2 : 0 < cos U1 -> 0 < cos U2 -> Rabs (sin U2) <= - sin U1 -> cos U1 <= cos U2.
Proof.
  intros C1 C2 Le. assert (N1 : 0 <= - sin U1) by (pose proof (Rabs_pos (sin U2)); lra). apply Rabs_le_between in Le. pose proof (sc1 U1). pose proof (sc1 U2). apply Rnot_lt_le; intros X. nra.
Qed.
Section Az.
Variables (U1 U2 : R).
Hypothesis V1 : - PI/2 < U1 < PI/2.
Hypothesis V2 : - PI/2 < U2 < PI/2.
Hypothesis N1 : sin U1 < 0.
Hypothesis Le : Rabs (sin U2) <= - sin U1.
Let s1 := sin U1. Let s2 := sin U2. Let c1 := cos U1. Let c2 := cos U2.
Definition aT1 (o : R) : R := c1 * s2 - s1 * c2 * cos o.
Definition aT2 (o : R) : R := c1 * s2 * cos o - s1 * c2.
Definition aS (o : R) : R := sin (sg U1 U2 o).
Definition az (o : R) : R := PI / 2 - atan (aT1 o / (c2 * sin o)).
Definition aw (o : R) : R := c2 * aT2 o / aS o ^ 2.
Let cp : 0 < c1 <= 1 /\ 0 < c2 <= 1. Proof. apply c_pos; assumption. Qed.
Lemma c12 : c1 <= c2. Proof. apply cos_order; [apply cp|apply cp|exact Le]. Qed.
Lemma aS_nn o : 0 <= aS o. Proof. apply (sg_cs U1 U2 o). Qed.
Lemma aS2 o : aS o ^ 2 = (c2 * sin o) ^ 2 + aT1 o ^ 2. Proof. apply sin2_sg. Qed.
Lemma aS2' o : aS o ^ 2 = (c1 * sin o) ^ 2 + aT2 o ^ 2.
Proof. unfold aS. rewrite (sin2_sg' U1 U2). fold c1 c2 s1 s2. unfold aT2. ring. Qed.
Section At.
Variable o : R.
Hypothesis Ho : 0 < o < PI.
Let so : 0 < sin o. Proof. apply sin_gt_0; lra. Qed.
Lemma c2s_pos : 0 < c2 * sin o. Proof. destruct cp. nra. Qed.
Lemma aS_ge : c2 * sin o <= aS o.
Proof. apply Rsqr_incr_0_var; [rewrite !Rsqr_pow2, aS2; pose proof (pow2_ge_0 (aT1 o)); lra|apply aS_nn]. Qed.
Lemma aS_pos : 0 < aS o. Proof. pose proof aS_ge. pose proof c2s_pos. lra. Qed.
Lemma aT2_pos : 0 < aT2 o.
Proof.
  destruct cp as [P1 P2]. pose proof c12. assert (C : Rabs (cos o) < 1). { apply Rabs_def1; [|apply Ropp_lt_cancel; rewrite Ropp_involutive]; pose proof (sc1 o); nra. }
  unfold aT2. assert (Rabs (c1 * s2 * cos o) < - s1 * c2).
  { rewrite !Rabs_mult, (Rabs_right c1) by lra. fold s1 s2 in Le, N1. pose proof (Rabs_pos s2). pose proof (Rabs_pos (cos o)).
    apply Rle_lt_trans with (c2 * - s1 * Rabs (cos o)); [|assert (0 < c2 * - s1) by nra; nra]. apply Rmult_le_compat_r; [lra|]. apply Rmult_le_compat; lra. }
  apply Rabs_def2 in H0. lra.
Qed.
Lemma aw_pos : 0 < aw o.
Proof. pose proof aS_pos. pose proof aT2_pos. destruct cp. unfold aw. apply Rdiv_lt_0_compat; [nra|apply pow_lt; lra]. Qed.
Lemma az_sin : sin (az o) = c2 * sin o / aS o.
Proof.
  pose proof c2s_pos as P. pose proof aS_pos as Sp. unfold az. rewrite sin_shift. set (z := aT1 o / (c2 * sin o)).
  assert (C0 : 0 < cos (atan z)) by (pose proof (atan_bound z); apply cos_gt_0; lra).
  assert (TT : sin (atan z) = z * cos (atan z)) by (rewrite <- (tan_atan z) at 2; unfold tan; field; lra).
  assert (Q : cos (atan z) ^ 2 * aS o ^ 2 = (c2 * sin o) ^ 2).
  { rewrite aS2. replace (aT1 o) with (z * (c2 * sin o)) by (unfold z; field; lra). pose proof (sc1 (atan z)) as U. rewrite TT in U. transitivity ((z * cos (atan z) * (z * cos (atan z)) + cos (atan z) * cos (atan z)) * (c2 * sin o) ^ 2); [ring|rewrite U; ring]. }
  apply Rmult_eq_reg_r with (aS o); [|lra]. replace (c2 * sin o / aS o * aS o) with (c2 * sin o) by (field; lra).
  apply Rsqr_inj; [nra|lra|]. rewrite !Rsqr_pow2, Rpow_mult_distr. exact Q.
Qed.
Lemma az_cos : cos (az o) = aT1 o / aS o.
Proof.
  pose proof c2s_pos as P. pose proof aS_pos as Sp. pose proof az_sin as E. unfold az in *. rewrite sin_shift in E. rewrite cos_shift. set (z := aT1 o / (c2 * sin o)) in *.
  assert (C0 : 0 < cos (atan z)) by (pose proof (atan_bound z); apply cos_gt_0; lra).
  assert (TT : sin (atan z) = z * cos (atan z)) by (rewrite <- (tan_atan z) at 2; unfold tan; field; lra).
  rewrite TT, E. unfold z. field. split; lra.
Qed.
Lemma az_range : 0 < az o < PI.
Proof. unfold az. pose proof (atan_bound (aT1 o / (c2 * sin o))). lra. Qed.
Lemma az_derive : is_derive az o (aw o).
Proof.
  pose proof c2s_pos as P. pose proof aS_pos as Sp. pose proof (aS2 o) as E. destruct cp as [P1 P2]. unfold az, aT1, aw, aT2. 
  assert (D : is_derive (fun o => (c1 * s2 - s1 * c2 * cos o) / (c2 * sin o)) o (- (c2 * aT2 o) / (c2 * sin o) ^ 2)).
  { auto_derive; [lra|]. unfold aT2. pose proof (sc1 o) as Q. assert (Q' : sin o ^ 2 = 1 - cos o ^ 2) by nra. apply Rmult_eq_reg_r with (c2 * sin o ^ 2); [|apply Rgt_not_eq; apply Rmult_lt_0_compat; [lra|apply pow_lt; lra]].
    match goal with |- ?l = ?r => replace l with (s1 * c2 * sin o ^ 2 - (c1 * s2 - s1 * c2 * cos o) * cos o) by (field; lra); replace r with (- (c1 * s2 * cos o - s1 * c2)) by (field; lra) end. rewrite Q'. ring. }
  assert (D2 : is_derive (fun z => PI / 2 - atan z) (aT1 o / (c2 * sin o)) (- / (1 + (aT1 o / (c2 * sin o)) ^ 2))).
  { set (z := aT1 o / (c2 * sin o)). pose proof (pow2_ge_0 z). auto_derive; [exact I|]. unfold Rsqr. field. lra. }
  pose proof (is_derive_comp (fun z => PI / 2 - atan z) (fun o => (c1 * s2 - s1 * c2 * cos o) / (c2 * sin o)) o _ _ D2 D) as X. cbv beta in X.
  replace (c2 * (c1 * s2 * cos o - s1 * c2) / aS o ^ 2) with (scal (- (c2 * aT2 o) / (c2 * sin o) ^ 2) (- / (1 + (aT1 o / (c2 * sin o)) ^ 2))); [exact X|].
  change (- (c2 * aT2 o) / (c2 * sin o) ^ 2 * - / (1 + (aT1 o / (c2 * sin o)) ^ 2) = c2 * aT2 o / aS o ^ 2).
  replace ((aT1 o / (c2 * sin o)) ^ 2) with (aT1 o ^ 2 / (c2 * sin o) ^ 2) by (field; lra).
  assert (E0 : 0 < aS o ^ 2) by (apply pow_lt; lra). rewrite E in *. set (u := c2 * sin o) in *. set (t := aT1 o) in *. set (y := c2 * aT2 o). assert (0 < u ^ 2) by (apply pow_lt; lra).
  field. repeat apply conj; try lra.
Qed.
Lemma xs_le : xx U1 U2 o / aS o * sin o <= 1 /\ 0 <= xx U1 U2 o.
Proof.
  pose proof aS_pos as Sp. pose proof aS_ge as G. pose proof c2s_pos as P. pose proof c12 as CC. destruct cp as [P1 P2].
  destruct (xx_le U1 U2 V1 V2 o Sp ltac:(lra)) as [[X0 X1] X2]. split; [|exact X0]. apply Rmult_le_reg_r with (aS o ^ 2); [apply pow_lt; lra|].
  replace (xx U1 U2 o / aS o * sin o * aS o ^ 2) with (xx U1 U2 o * aS o * sin o) by (field; lra). unfold aS at 1. rewrite (xx_mul U1 U2 o Sp). fold c1 c2.
  assert ((c2 * sin o) ^ 2 <= aS o ^ 2) by (apply pow_incr; lra). assert (c1 * c2 * sin o * sin o <= (c2 * sin o) ^ 2); [|lra]. replace ((c2 * sin o) ^ 2) with (c2 * c2 * sin o * sin o) by ring. repeat apply Rmult_le_compat_r; lra.
Qed.
Lemma key_T2 : aS o ^ 2 * Rabs s2 <= 4 * (c2 * aT2 o).
Proof.
  destruct cp as [P1 P2]. pose proof c12 as CC. pose proof aT2_pos as TP. fold s1 s2 in Le, N1. pose proof (Rabs_pos s2) as A2.
  assert (S1 : - s1 <= 1) by (unfold s1; pose proof (SIN_bound U1); lra).
  assert (K : Rabs (cos o) <= 1) by apply L_vincenty2.abs_cos. pose proof (Rabs_pos (cos o)) as K0.
  assert (T : aT2 o >= - s1 * c2 - c1 * Rabs s2 * Rabs (cos o)).
  { unfold aT2. pose proof (Rle_abs (- (c1 * s2 * cos o))) as Q. rewrite Rabs_Ropp, !Rabs_mult, (Rabs_right c1) in Q by lra. lra. }
  assert (T' : aT2 o <= - s1 * c2 + c1 * Rabs s2 * Rabs (cos o)).
  { unfold aT2. pose proof (Rle_abs (c1 * s2 * cos o)) as Q. rewrite !Rabs_mult, (Rabs_right c1) in Q by lra. lra. }
  assert (Q : sin o ^ 2 = (1 - Rabs (cos o)) * (1 + Rabs (cos o))). { replace ((1 - Rabs (cos o)) * (1 + Rabs (cos o))) with (1 - Rabs (cos o) ^ 2) by ring. rewrite pow2_abs. pose proof (sc1 o). nra. }
  set (k := Rabs (cos o)) in *. set (a2 := Rabs s2) in *. assert (q1 : c1 * a2 <= c2 * - s1) by (apply Rmult_le_compat; lra). assert (q0 : 0 <= c1 * a2) by nra.
  rewrite aS2', Rpow_mult_distr, Q.
  assert (X : c1 ^ 2 * ((1 - k) * (1 + k)) * a2 <= 2 * (c2 * aT2 o)).
  { replace (c1 ^ 2 * ((1 - k) * (1 + k)) * a2) with (c1 * ((c1 * a2 * (1 - k)) * (1 + k))) by ring.
    assert (c1 * a2 * (1 - k) <= aT2 o) by nra. assert (0 <= c1 * a2 * (1 - k)) by (apply Rmult_le_pos; lra).
    replace (2 * (c2 * aT2 o)) with (c2 * (aT2 o * 2)) by ring. apply Rmult_le_compat; [lra|apply Rmult_le_pos; lra|lra|]. apply Rmult_le_compat; lra. }
  assert (Y : aT2 o ^ 2 * a2 <= 2 * (c2 * aT2 o)).
  { assert (aT2 o <= 2 * c2) by nra. assert (a2 <= 1) by lra. assert (aT2 o * a2 <= 2 * c2) by nra. nra. }
  lra.
Qed.
Lemma lnw_derive : exists d, is_derive (fun o => ln (aw o)) o d /\ Rabs d <= 6 * (xx U1 U2 o / aS o).
Proof.
  pose proof aS_pos as Sp. pose proof aT2_pos as TP. pose proof aw_pos as WP. destruct cp as [P1 P2]. pose proof (sg_derive U1 U2 o Sp) as Ds. set (x := xx U1 U2 o) in *.
  exists (- (c1 * s2 * sin o) / aT2 o - 2 * (cos (sg U1 U2 o) * x / aS o)). split.
  - unfold aw, aT2, aS in *. auto_derive.
    + split; [exists x; exact Ds|]. split; [apply Rgt_not_eq; nra|]. split; [exact WP|exact I].
    + replace (Derive (fun x => sg U1 U2 x) o) with x by (symmetry; apply is_derive_unique; exact Ds). field. repeat apply conj; lra.
  - assert (X0 : 0 <= x) by apply xs_le. assert (I0 : 0 < / aS o) by (apply Rinv_0_lt_compat; lra). assert (I1 : 0 < / aT2 o) by (apply Rinv_0_lt_compat; lra).
    unfold Rminus. eapply Rle_trans; [apply Rabs_triang|]. rewrite Rabs_Ropp.
    assert (A : Rabs (- (c1 * s2 * sin o) / aT2 o) <= 4 * (x / aS o)).
    { unfold Rdiv. rewrite Rabs_mult, Rabs_Ropp, !Rabs_mult, (Rabs_right c1), (Rabs_right (sin o)), (Rabs_right (/ aT2 o)) by lra.
      apply Rmult_le_reg_r with (c2 * aT2 o * aS o); [repeat apply Rmult_lt_0_compat; lra|].
      replace (c1 * Rabs s2 * sin o * / aT2 o * (c2 * aT2 o * aS o)) with (c1 * c2 * sin o * (Rabs s2 * aS o)) by (field; lra). unfold c1, c2. rewrite <- (xx_mul U1 U2 o Sp). fold x. fold (aS o) c1 c2.
      replace (4 * (x * / aS o) * (c2 * aT2 o * aS o)) with (x * (4 * (c2 * aT2 o))) by (field; lra). replace (x * aS o * (Rabs s2 * aS o)) with (x * (aS o ^ 2 * Rabs s2)) by ring. apply Rmult_le_compat_l; [lra|]. exact key_T2. }
    assert (B : Rabs (2 * (cos (sg U1 U2 o) * x / aS o)) <= 2 * (x / aS o)).
    { rewrite Rabs_mult, (Rabs_right 2) by lra. apply Rmult_le_compat_l; [lra|]. unfold Rdiv. rewrite !Rabs_mult, (Rabs_right x), (Rabs_right (/ aS o)) by lra. pose proof (L_vincenty2.abs_cos (sg U1 U2 o)) as K.
      rewrite <- (Rmult_1_l (x * / aS o)), <- Rmult_assoc. rewrite !Rmult_assoc. apply Rmult_le_compat_r; [nra|exact K]. }
    lra.
Qed.
Lemma lnS_derive : exists d, is_derive (fun o => ln (aS o)) o d /\ Rabs d <= xx U1 U2 o / aS o.
Proof.
  pose proof aS_pos as Sp. pose proof (sg_derive U1 U2 o Sp) as Ds. pose proof xs_le as [_ X0]. set (x := xx U1 U2 o) in *. assert (I0 : 0 < / aS o) by (apply Rinv_0_lt_compat; lra).
  exists (cos (sg U1 U2 o) * (x / aS o)). split.
  - unfold aS in *. auto_derive; [split; [exists x; exact Ds|]; split; [exact Sp|exact I]|].
    replace (Derive (fun x => sg U1 U2 x) o) with x by (symmetry; apply is_derive_unique; exact Ds). field. lra.
  - rewrite Rabs_mult, (Rabs_right (x / aS o)) by (unfold Rdiv; nra). rewrite <- (Rmult_1_l (x / aS o)) at 2. apply Rmult_le_compat_r; [unfold Rdiv; nra|apply L_vincenty2.abs_cos].
Qed.
(** x' sin(sigma) is a product of cosines *)
Lemma xx'_le : Rabs (xx' U1 U2 o * aS o) <= 1.
Proof.
  pose proof aS_pos as Sp. pose proof aT2_pos as TP. destruct cp as [P1 P2].
  assert (E : xx' U1 U2 o * aS o = (aT1 o * c1) / aS o * ((aT2 o * c2) / aS o) ).
  { unfold xx'. fold (aS o). fold c1 c2. destruct (sg_cs U1 U2 o) as (C & _). fold s1 s2 c1 c2 in C. assert (Xe : xx U1 U2 o = c1 * c2 * sin o / aS o) by reflexivity. rewrite Xe, C.
    apply Rmult_eq_reg_r with (aS o ^ 2); [|apply pow_nonzero; lra].
    replace ((c1 * c2 * cos o - (c1 * c2 * sin o / aS o) ^ 2 * (s1 * s2 + c1 * c2 * cos o)) / aS o * aS o * aS o ^ 2) with (c1 * c2 * cos o * aS o ^ 2 - (c1 * c2 * sin o) ^ 2 * (s1 * s2 + c1 * c2 * cos o)) by (field; lra).
    replace (aT1 o * c1 / aS o * (aT2 o * c2 / aS o) * aS o ^ 2) with (aT1 o * c1 * (aT2 o * c2)) by (field; lra).
    rewrite aS2. unfold aT1, aT2. pose proof (sc1 U1) as Q1. pose proof (sc1 U2) as Q2. fold s1 c1 in Q1. fold s2 c2 in Q2. pose proof (sc1 o) as Q3.
    assert (Q1' : s1 ^ 2 = 1 - c1 ^ 2) by nra. assert (Q2' : s2 ^ 2 = 1 - c2 ^ 2) by nra. assert (Q3' : sin o ^ 2 = 1 - cos o ^ 2) by nra. ring [Q1' Q2' Q3']. }
  rewrite E. replace 1 with (1 * 1) by ring. rewrite Rabs_mult. apply Rmult_le_compat; try apply Rabs_pos.
  - unfold Rdiv. rewrite Rabs_mult, (Rabs_right (/ aS o)) by (left; apply Rinv_0_lt_compat; lra). apply Rmult_le_reg_r with (aS o); [lra|]. rewrite Rmult_assoc, Rinv_l, Rmult_1_r, Rmult_1_l by lra.
    apply Rsqr_incr_0_var; [|lra]. rewrite <- Rsqr_abs, !Rsqr_pow2, aS2, Rpow_mult_distr. pose proof (pow2_ge_0 (aT1 o)). pose proof (pow2_ge_0 (c2 * sin o)). assert (c1 ^ 2 <= 1) by nra. nra.
  - unfold Rdiv. rewrite Rabs_mult, (Rabs_right (/ aS o)) by (left; apply Rinv_0_lt_compat; lra). apply Rmult_le_reg_r with (aS o); [lra|]. rewrite Rmult_assoc, Rinv_l, Rmult_1_r, Rmult_1_l by lra.
    apply Rsqr_incr_0_var; [|lra]. rewrite <- Rsqr_abs, !Rsqr_pow2, aS2', Rpow_mult_distr. pose proof (pow2_ge_0 (aT2 o)). pose proof (pow2_ge_0 (c1 * sin o)). assert (c2 ^ 2 <= 1) by nra. nra.
Qed.
End At.
End Az.
