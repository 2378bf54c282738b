(** Travelling along meridians: the solver always finds those courses at once. *)
From Coq Require Import QArith List Reals Lra Lia Psatz.
Import ListNotations.
From Coquelicot Require Import Coquelicot.
From Verif Require Import PyMath M_karney L_PyMath L_poly L_latitude2 L_series1 L_series2 L_karney L_karney2 L_karney3 L_karney4 L_karney5 L_karney6 L_karney7 L_karney8 Spec Spec_geodesic L_geodesic5 L_geodesic6 L_geodesic7 L_geodesic8 L_geodesic9 L_geodesic10.
Open Scope R_scope.

Lemma A2_val e : e <> -1 -> 1 + A2m1f e = (1 + (- 11 * e ^ 6 - 28 * e ^ 4 - 192 * e ^ 2) / 256) / (1 + e).
Proof. intros H. unfold A2m1f, polyval, polyval_loop, tbl, A2coeff; cbn [nth]. field. lra. Qed.
Lemma C2_val e : forall k, arr (C2f e) k = match k with
  | 1%nat => e * (e ^ 4 + 2 * e ^ 2 + 16) / 32
  | 2%nat => e ^ 2 * (35 * e ^ 4 + 64 * e ^ 2 + 384) / 2048
  | 3%nat => e ^ 3 * (15 * e ^ 2 + 80) / 768
  | 4%nat => e ^ 4 * (7 * e ^ 2 + 35) / 512
  | 5%nat => e ^ 5 * 63 / 1280
  | 6%nat => e ^ 6 * 77 / 2048
  | _ => 0 end.
Proof.
  intros k. unfold arr, C2f, series_coeffs, nC2.
  do 7 (destruct k as [|k]; [cbn -[Rmult Rplus Rminus Ropp IZR pow]; unfold polyval, polyval_loop, tbl, C2coeff; cbn [nth]; try reflexivity; field|]).
  destruct k; reflexivity.
Qed.
Definition d2ser (e t : R) : R := (1 + A2m1f e) * (t + SinCosSeries true (sin t) (cos t) (arr (C2f e)) nC2).
Definition d2ser' (e c : R) : R := (1 + (- 11 * e ^ 6 - 28 * e ^ 4 - 192 * e ^ 2) / 256) *
  (1 + 2 * (e * (e ^ 4 + 2 * e ^ 2 + 16) / 32) * c + 4 * (e ^ 2 * (35 * e ^ 4 + 64 * e ^ 2 + 384) / 2048) * (2 * c ^ 2 - 1) +
   6 * (e ^ 3 * (15 * e ^ 2 + 80) / 768) * (4 * c ^ 3 - 3 * c) + 8 * (e ^ 4 * (7 * e ^ 2 + 35) / 512) * (8 * c ^ 4 - 8 * c ^ 2 + 1) +
   10 * (e ^ 5 * 63 / 1280) * (16 * c ^ 5 - 20 * c ^ 3 + 5 * c) + 12 * (e ^ 6 * 77 / 2048) * (32 * c ^ 6 - 48 * c ^ 4 + 18 * c ^ 2 - 1)).
Lemma d2ser_derive e t : e <> -1 -> is_derive (d2ser e) t (d2ser' e (cos (2 * t)) / (1 + e)).
Proof.
  intros He. apply is_derive_ext with (f := fun t => (1 + A2m1f e) * (t + (arr (C2f e) 1 * sin (2 * t) + arr (C2f e) 2 * sin (2 * (2 * t)) + arr (C2f e) 3 * sin (2 * (3 * t)) +
     arr (C2f e) 4 * sin (2 * (4 * t)) + arr (C2f e) 5 * sin (2 * (5 * t)) + arr (C2f e) 6 * sin (2 * (6 * t))))).
  { intros u. unfold d2ser, nC2. rewrite sin6. reflexivity. }
  evar (d : R). replace (d2ser' e (cos (2 * t)) / (1 + e)) with d; [unfold d; auto_derive; [exact I|reflexivity]|].
  unfold d. destruct (cheb t) as (C2 & C3 & C4 & C5 & C6). rewrite C2, C3, C4, C5, C6, A2_val, !C2_val by exact He. unfold d2ser'. field. lra.
Qed.
Lemma jser_close e t1 t2 : 0 <= e <= 1 / 150 ->
  Rabs (((dser e t2 - d2ser e t2) - (dser e t1 - d2ser e t1)) - ((2 * e * t2 - e * sin (2 * t2)) - (2 * e * t1 - e * sin (2 * t1)))) <= 7 * e ^ 2 * Rabs (t2 - t1).
Proof.
  intros He. apply (derive_close (fun t => dser e t - d2ser e t) (fun t => 2 * e * t - e * sin (2 * t)) (fun t => dser' e (cos (2 * t)) / (1 - e) - d2ser' e (cos (2 * t)) / (1 + e)) (fun t => 2 * e - e * (2 * cos (2 * t)))).
  - intros t. apply is_derive_Reals. apply derivable_pt_lim_minus; apply is_derive_Reals; [apply dser_derive|apply d2ser_derive]; lra.
  - intros t. auto_derive; [exact I|ring].
  - intros t. set (c := cos (2 * t)). assert (Hc : Rabs c <= 1) by apply cos_abs1.
    assert (P1 : Rabs (dser' e c - (1 - e * c)) <= 2 * e ^ 2). { unfold dser'. poly_le [e; c] (1#150)%Q 2%nat (2#1)%Q; [qside|exact Hc]. }
    assert (P2 : Rabs (d2ser' e c - (1 + e * c)) <= 4 * e ^ 2). { unfold d2ser'. poly_le [e; c] (1#150)%Q 2%nat (4#1)%Q; [qside|exact Hc]. }
    assert (I1 : 0 < / (1 - e) <= 150 / 149). { split; [apply Rinv_0_lt_compat; lra|]. apply Rmult_le_reg_r with (1 - e); [lra|]. rewrite Rinv_l by lra. lra. }
    assert (I2 : 0 < / (1 + e) <= 1). { split; [apply Rinv_0_lt_compat; lra|]. apply Rmult_le_reg_r with (1 + e); [lra|]. rewrite Rinv_l by lra. lra. }
    replace (dser' e c / (1 - e) - d2ser' e c / (1 + e) - (2 * e - e * (2 * c))) with ((dser' e c - (1 - e * c)) * / (1 - e) + (- (d2ser' e c - (1 + e * c)) * / (1 + e)) + e ^ 2 * (2 * e * (1 - c)) * (/ (1 - e) * / (1 + e))) by (field; lra).
    apply Rabs_le_between in Hc. assert (e2 : 0 <= e ^ 2) by apply pow2_ge_0.
    eapply Rle_trans; [apply Rabs_triang|]. eapply Rle_trans; [apply Rplus_le_compat_r, Rabs_triang|].
    assert (Q1 : Rabs ((dser' e c - (1 - e * c)) * / (1 - e)) <= 2 * e ^ 2 * (150 / 149)) by (rewrite Rabs_mult, (Rabs_right (/ (1 - e))) by lra; apply Rmult_le_compat; [apply Rabs_pos|lra|exact P1|lra]).
    assert (Q2 : Rabs (- (d2ser' e c - (1 + e * c)) * / (1 + e)) <= 4 * e ^ 2 * 1) by (rewrite Rabs_mult, Rabs_Ropp, (Rabs_right (/ (1 + e))) by lra; apply Rmult_le_compat; [apply Rabs_pos|lra|exact P2|lra]).
    assert (Q3 : Rabs (e ^ 2 * (2 * e * (1 - c)) * (/ (1 - e) * / (1 + e))) <= e ^ 2 * (1 / 30) * (2 * 1)).
    { rewrite Rabs_mult. apply Rmult_le_compat; try apply Rabs_pos.
      - rewrite Rabs_right by (apply Rle_ge; apply Rmult_le_pos; nra). apply Rmult_le_compat_l; [exact e2|]. nra.
      - rewrite Rabs_right by nra. apply Rmult_le_compat; lra. }
    lra.
Qed.
Lemma sin_gap x : 1 <= x <= PI -> 3 / 20 <= x - sin x.
Proof.
  intros [H1 H2]. apply Rle_trans with (1 - sin 1).
  - destruct (sin_taylor 1) as (th & T & E). apply Rabs_le_between in T. rewrite E. lra.
  - destruct (Req_dec x 1) as [-> |N]; [lra|]. left. assert (D : forall y, is_derive (fun u => u - sin u) y (1 - cos y)) by (intros y; auto_derive; [exact I|ring]).
    apply (mvt_incr (fun u => u - sin u) (fun y => 1 - cos y)); [lra|auto|]. intros y Hy. assert (cos y < cos 0) by (apply cos_decreasing_1; pose proof PI_RGT_0; lra). rewrite cos_0 in *. lra.
Qed.
(** The meridian is taken whenever the longitudes are equal or opposite. *)
Section Mer.
Variables (g : Geodesic) (U1 U2 cl dn1 dn2 : R).
Hypothesis O : oblate g.
Hypothesis Hf : gd_f g <= 1 / 100.
Hypothesis C1 : 0 < cos U1.
Hypothesis C2 : 0 < cos U2.
Hypothesis N1 : sin U1 < 0.
Hypothesis Le : Rabs (sin U2) <= - sin U1.
Hypothesis Cl : is_sign cl.
Hypothesis D2 : 1 <= dn2.
Hypothesis D12 : dn2 <= dn1.
Let e := gd_n g.
Let c1 := cl * cos U1.
Let sg := atan2 (c1 * sin U2 - sin U1 * cos U2) (c1 * cos U2 + sin U1 * sin U2).
Let J := (A1m1f e - A2m1f e) * sg + ((1 + A1m1f e) * (SinCosSeries true (sin U2) (cos U2) (arr (C1f e)) nC1 - SinCosSeries true (sin U1) c1 (arr (C1f e)) nC1)
   - (1 + A2m1f e) * (SinCosSeries true (sin U2) (cos U2) (arr (C2f e)) nC2 - SinCosSeries true (sin U1) c1 (arr (C2f e)) nC2)).
Lemma mer_sg0 : 0 <= c1 * sin U2 - sin U1 * cos U2.
Proof.
  pose proof (sc1 U1) as Q1. pose proof (sc1 U2) as Q2. assert (S2 : sin U2 ^ 2 <= sin U1 ^ 2) by (unfold Rabs in Le; destruct (Rcase_abs (sin U2)); nra).
  assert (CC : cos U1 <= cos U2) by (apply Rnot_lt_le; intros X; nra).
  assert (X : Rabs (c1 * sin U2) <= cos U2 * - sin U1).
  { unfold c1. rewrite !Rabs_mult. replace (Rabs cl) with 1 by (destruct Cl as [-> | ->]; [rewrite Rabs_R1|replace (-1) with (-(1)) by lra; rewrite Rabs_Ropp, Rabs_R1]; reflexivity).
    rewrite Rmult_1_l, (Rabs_right (cos U1)) by lra. apply Rmult_le_compat; [lra|apply Rabs_pos|exact CC|exact Le]. }
  apply Rabs_le_between in X. lra.
Qed.
Lemma mer_short : 1 <= sg -> 0 <= dn2 * (c1 * sin U2) - dn1 * (sin U1 * cos U2) - c1 * cos U2 * J.
Proof.
  intros S1. pose proof mer_sg0 as SG0. pose proof (sc1 U1) as Q1. pose proof (sc1 U2) as Q2. assert (S2 : sin U2 ^ 2 <= sin U1 ^ 2) by (unfold Rabs in Le; destruct (Rcase_abs (sin U2)); nra).
  assert (CC : cos U1 <= cos U2) by (apply Rnot_lt_le; intros X; nra).
  assert (CL2 : cl ^ 2 = 1) by (destruct Cl as [-> | ->]; ring).
  assert (NN : sin U1 ^ 2 + c1 ^ 2 = 1) by (unfold c1; rewrite Rpow_mult_distr, CL2; nra).
  assert (NG : (c1 * sin U2 - sin U1 * cos U2) ^ 2 + (c1 * cos U2 + sin U1 * sin U2) ^ 2 = 1) by (transitivity ((sin U1 ^ 2 + c1 ^ 2) * (sin U2 * sin U2 + cos U2 * cos U2)); [ring|rewrite NN, Q2; ring]).
  destruct (unit_polar _ _ NG) as [GS GC]. fold sg in GS, GC. pose proof (atan2_range (c1 * sin U2 - sin U1 * cos U2) (c1 * cos U2 + sin U1 * sin U2)) as GR. fold sg in GR.
  destruct (unit_polar _ _ NN) as [T1s T1c]. set (t1 := atan2 (sin U1) c1) in *.
  assert (T2 : sin (t1 + sg) = sin U2 /\ cos (t1 + sg) = cos U2).
  { rewrite sin_plus, cos_plus, T1s, T1c, GS, GC. split; [transitivity ((sin U1 ^ 2 + c1 ^ 2) * sin U2); [ring|rewrite NN; ring]|transitivity ((sin U1 ^ 2 + c1 ^ 2) * cos U2); [ring|rewrite NN; ring]]. }
  destruct T2 as [T2s T2c].
  assert (Hn : 0 <= e <= 1 / 150).
  { unfold e. pose proof O as (_ & F & _ & _ & _ & En & _). rewrite En. set (f := gd_f g) in *. split; [apply Rmult_le_pos; [lra|left; apply Rinv_0_lt_compat; lra]|]. apply Rmult_le_reg_r with (2 - f); [lra|]. replace (f / (2 - f) * (2 - f)) with f by (field; lra). lra. }
  assert (EJ : J = (dser e (t1 + sg) - d2ser e (t1 + sg)) - (dser e t1 - d2ser e t1)) by (unfold J, dser, d2ser; rewrite T2s, T2c, T1s, T1c; ring).
  pose proof (jser_close e t1 (t1 + sg) Hn) as JC. rewrite <- EJ in JC. replace (t1 + sg - t1) with sg in JC by ring. rewrite (Rabs_right sg) in JC by lra.
  replace (2 * e * (t1 + sg) - e * sin (2 * (t1 + sg)) - (2 * e * t1 - e * sin (2 * t1))) with (2 * e * (sg - sin sg * cos (2 * t1 + sg))) in JC.
  2: { assert (X1 : sin (2 * (t1 + sg)) = sin ((2 * t1 + sg) + sg)) by (f_equal; ring). assert (X2 : sin (2 * t1) = sin ((2 * t1 + sg) - sg)) by (f_equal; ring). rewrite X1, X2, sin_plus, sin_minus. ring. }
  assert (SS : 0 <= sin sg <= 1) by (rewrite GS; split; [exact SG0|]; pose proof (SIN_bound sg) as Q; rewrite GS in Q; lra). pose proof (COS_bound (2 * t1 + sg)) as CB.
  pose proof (sin_gap sg ltac:(lra)) as GP. apply Rabs_le_between in JC. pose proof PI_4 as P4.
  set (k := cos (2 * t1 + sg)) in *. assert (SK : - sin sg <= sin sg * k <= sin sg) by nra.
  assert (e2 : e ^ 2 <= e / 150) by nra.
  assert (JL : 0 <= J). { assert (2 * e * (3 / 20) <= 2 * e * (sg - sin sg * k)) by (apply Rmult_le_compat_l; lra). assert (7 * e ^ 2 * sg <= 7 * (e / 150) * 4) by (apply Rmult_le_compat; nra). lra. }
  assert (JU : J <= sg). { assert (2 * e * (sg - sin sg * k) <= 2 * e * (sg + sg)) by (apply Rmult_le_compat_l; [lra|]; assert (sin sg <= sg) by lra; lra). assert (7 * e ^ 2 * sg <= 7 * (e / 150) * sg) by (apply Rmult_le_compat_r; lra). nra. }
  assert (A0 : 0 <= dn2 * (c1 * sin U2 - sin U1 * cos U2)) by (apply Rmult_le_pos; lra).
  assert (A1 : 0 <= (dn1 - dn2) * (- (sin U1 * cos U2))) by (apply Rmult_le_pos; nra).
  destruct Cl as [E|E].
  2: { assert (c1 * cos U2 * J <= 0) by (unfold c1; rewrite E; assert (0 <= cos U1 * cos U2 * J) by (apply Rmult_le_pos; [nra|exact JL]); lra). lra. }
  (* same meridian: the arc is at most the difference of the tangents *)
  assert (c1E : c1 = cos U1) by (unfold c1; rewrite E; ring).
  set (u1 := atan (sin U1 / cos U1)). set (u2 := atan (sin U2 / cos U2)).
  assert (TU : forall U, 0 < cos U -> cos U = cos (atan (sin U / cos U)) /\ sin U = sin (atan (sin U / cos U))).
  { intros U CU. assert (H := atan2_pos (sin U) (cos U) CU). rewrite <- H. destruct (unit_polar (sin U) (cos U)) as [P Q]; [pose proof (sc1 U); lra|]. rewrite P, Q. split; reflexivity. }
  destruct (TU U1 C1) as [K1 K2]. destruct (TU U2 C2) as [K3 K4]. fold u1 in K1, K2. fold u2 in K3, K4.
  pose proof (atan_bound (sin U1 / cos U1)) as B1. pose proof (atan_bound (sin U2 / cos U2)) as B2. fold u1 in B1. fold u2 in B2.
  assert (ULE : u1 <= u2). { apply Rnot_lt_le; intros X. assert (0 < sin (u1 - u2)) by (apply sin_gt_0; lra). rewrite sin_minus, <- K1, <- K2, <- K3, <- K4 in *. rewrite c1E in SG0. lra. }
  assert (SGE : sg = u2 - u1). { unfold sg. rewrite c1E, K1, K2, K3, K4. rewrite (atan2_unique _ _ (u2 - u1) 1); [reflexivity|lra|lra|rewrite sin_minus; ring|rewrite cos_minus; ring]. }
  assert (TG : (u2 - u1) <= sin U2 / cos U2 - sin U1 / cos U1).
  { destruct (Req_dec u1 u2) as [X|X]. { rewrite K1, K2, K3, K4, X. lra. }
    destruct (mvt tan (fun t => 1 + (tan t) ^ 2) u1 u2) as (z & Ez & Hz); [lra| |].
    - intros z Hz. assert (0 < cos z) by (apply cos_gt_0; lra). unfold tan. auto_derive; [lra|]. field. lra.
    - replace (tan u2) with (sin U2 / cos U2) in Ez by (rewrite K3, K4; reflexivity). replace (tan u1) with (sin U1 / cos U1) in Ez by (rewrite K1, K2; reflexivity). rewrite Ez. pose proof (pow2_ge_0 (tan z)). nra. }
  assert (CCp : 0 < cos U1 * cos U2) by nra.
  assert (M : cos U1 * cos U2 * sg <= cos U1 * sin U2 - sin U1 * cos U2).
  { rewrite SGE. replace (cos U1 * sin U2 - sin U1 * cos U2) with (cos U1 * cos U2 * (sin U2 / cos U2 - sin U1 / cos U1)) by (field; lra). apply Rmult_le_compat_l; lra. }
  rewrite c1E in *. assert (cos U1 * cos U2 * J <= cos U1 * cos U2 * sg) by (apply Rmult_le_compat_l; lra). nra.
Qed.
End Mer.
Lemma dn_order g s1 s2 : 0 <= gd_ep2 g -> s2 ^ 2 <= s1 ^ 2 -> 1 <= sqrt (1 + gd_ep2 g * s2 ^ 2) /\ sqrt (1 + gd_ep2 g * s2 ^ 2) <= sqrt (1 + gd_ep2 g * s1 ^ 2).
Proof.
  intros E H. pose proof (pow2_ge_0 s2). split; [rewrite <- sqrt_1 at 1; apply sqrt_le_1; nra|apply sqrt_le_1; nra].
Qed.
Lemma meridian_taken g A B L : oblate g -> gd_f g <= 1 / 100 -> -90 < A < 0 -> Rabs B <= - A -> k_tiny <= cos (radians A) -> sin (radians L) = 0 ->
  canon g A B L = (meridian_dist g A B L, (sin (radians L), cos (radians L)), (0, 1)).
Proof.
  intros O Hf HA HB T Z. destruct (canon_setup g A B O HA HB T) as (U1 & U2 & E1 & E2 & C1 & C2 & R1 & R2 & N1 & Le & Fx).
  unfold canon, meridian_dist. rewrite E1, E2. cbv zeta. rewrite Fx. unfold Inverse_core. cbv zeta.
  replace (-90) with (-(90)) by lra. destruct (Req_EM_T A (-(90))) as [X|_]; [lra|].
  destruct (Req_EM_T (sin (radians L)) 0) as [_|N]; [|contradiction].
  unfold Lengths_out. cbv zeta. replace 1.0 with 1 by lra. replace 0.0 with 0 by lra. rewrite !Rmult_1_l.
  assert (Cl : is_sign (cos (radians L))). { pose proof (sc1 (radians L)) as Q. rewrite Z in Q. assert (P : (cos (radians L) - 1) * (cos (radians L) + 1) = 0) by (ring_simplify; lra). apply Rmult_integral in P. destruct P; [left|right]; lra. }
  rewrite (Rmax_right 0) by (apply mer_sg0; assumption).
  assert (Ep0 : 0 <= gd_ep2 g). { pose proof O as (_ & F & F1 & _ & Ep & _). rewrite Ep. apply Rmult_le_pos; [nra|]. left. apply Rinv_0_lt_compat. pose proof (oblate_f1 g O). nra. }
  assert (S2 : sin U2 ^ 2 <= sin U1 ^ 2) by (unfold Rabs in Le; destruct (Rcase_abs (sin U2)); nra).
  destruct (dn_order g _ _ Ep0 S2) as [DA DB].
  destruct (Rlt_dec (atan2 _ _) 1) as [_|N].
  - apply f_equal2; [apply f_equal2|]; [ring|reflexivity|reflexivity].
  - apply Rnot_lt_le in N. pose proof (mer_short g U1 U2 _ _ _ O Hf C1 C2 N1 Le Cl DA DB N) as M.
    destruct (Rle_dec 0 _) as [_|X]; [apply f_equal2; [apply f_equal2|]; [ring|reflexivity|reflexivity]|]. exfalso. apply X. exact M.
Qed.
