(** The Karney inverse solver at the poles. *)
From Coq Require Import Reals Lra Lia Psatz.
From Coquelicot Require Import Coquelicot.
From Verif Require Import PyMath M_karney L_PyMath L_karney L_karney2 L_karney3 L_karney4 L_karney5 L_karney6 L_karney7 L_karney8 Spec Spec_geodesic L_series1 L_geodesic3 L_geodesic4 L_geodesic5 L_geodesic6 L_geodesic7 L_geodesic8 L_geodesic9 L_geodesic10 L_geodesic11 L_geodesic12.
Open Scope R_scope.

(** ** Size of the series *)
Lemma abs_mul_le x y a b : Rabs x <= a -> Rabs y <= b -> Rabs (x * y) <= a * b.
Proof. intros A B. rewrite Rabs_mult. apply Rmult_le_compat; try apply Rabs_pos; assumption. Qed.
Lemma clen_step ar y y' c a b d : Rabs ar <= 2 -> Rabs y <= a -> Rabs y' <= b -> Rabs c <= d -> Rabs (ar * y - y' + c) <= 2 * a + b + d.
Proof.
  intros A B C D. eapply Rle_trans; [apply Rabs_triang|]. apply Rplus_le_compat; [|exact D]. unfold Rminus. eapply Rle_trans; [apply Rabs_triang|]. rewrite Rabs_Ropp. apply Rplus_le_compat; [now apply abs_mul_le|exact C].
Qed.
Lemma series_small s c C e : Rabs s <= 1 -> Rabs c <= 1 -> 0 <= e <= 1 / 150 -> (forall k, (1 <= k <= 6)%nat -> Rabs (C k) <= e ^ k) ->
  Rabs (SinCosSeries true s c C 6) <= 21 / 10 * e * Rabs c.
Proof.
  intros Hs Hc He HC. assert (AR : Rabs (2.0 * (c - s) * (c + s)) <= 2).
  { replace 2.0 with 2 by lra. replace (2 * (c - s) * (c + s)) with (2 * (c ^ 2 - s ^ 2)) by ring. apply Rabs_le_between in Hs. apply Rabs_le_between in Hc. apply Rabs_le. split; nra. }
  unfold SinCosSeries. cbv zeta. set (ar := 2.0 * (c - s) * (c + s)) in *. cbn [Nat.odd Nat.even negb Nat.div Nat.divmod fst clenshaw_loop Nat.mul Nat.add Nat.sub].
  pose proof (HC 1%nat ltac:(lia)) as H1. pose proof (HC 2%nat ltac:(lia)) as H2. pose proof (HC 3%nat ltac:(lia)) as H3. pose proof (HC 4%nat ltac:(lia)) as H4. pose proof (HC 5%nat ltac:(lia)) as H5. pose proof (HC 6%nat ltac:(lia)) as H6.
  assert (Z : Rabs 0.0 <= 0) by (replace 0.0 with 0 by lra; rewrite Rabs_R0; lra).
  pose proof (clen_step ar _ _ _ _ _ _ AR Z Z H6) as Y6. set (y6 := ar * 0.0 - 0.0 + C 6%nat) in *.
  pose proof (clen_step ar _ _ _ _ _ _ AR Y6 Z H5) as Y5. set (y5 := ar * y6 - 0.0 + C 5%nat) in *.
  pose proof (clen_step ar _ _ _ _ _ _ AR Y5 Y6 H4) as Y4. set (y4 := ar * y5 - y6 + C 4%nat) in *.
  pose proof (clen_step ar _ _ _ _ _ _ AR Y4 Y5 H3) as Y3. set (y3 := ar * y4 - y5 + C 3%nat) in *.
  pose proof (clen_step ar _ _ _ _ _ _ AR Y3 Y4 H2) as Y2. set (y2 := ar * y3 - y4 + C 2%nat) in *.
  pose proof (clen_step ar _ _ _ _ _ _ AR Y2 Y3 H1) as Y1. set (y1 := ar * y2 - y3 + C 1%nat) in *.
  replace (2.0 * s * c * y1) with (2 * (s * c * y1)) by (replace 2.0 with 2 by lra; ring).
  assert (P1 : 0 <= e * (1 / 150 - e)) by nra. assert (P2 : e ^ 2 <= e / 150) by nra. assert (Q2 : 0 <= e ^ 2) by nra. assert (P3 : e ^ 3 <= e / 22500) by nra. assert (Q3 : 0 <= e ^ 3) by (apply pow_le; lra).
  assert (P4 : e ^ 4 <= e / 22500) by (replace (e ^ 4) with (e ^ 3 * e) by ring; nra). assert (Q4 : 0 <= e ^ 4) by (apply pow_le; lra).
  assert (P5 : e ^ 5 <= e / 22500) by (replace (e ^ 5) with (e ^ 4 * e) by ring; nra). assert (Q5 : 0 <= e ^ 5) by (apply pow_le; lra).
  assert (P6 : e ^ 6 <= e / 22500) by (replace (e ^ 6) with (e ^ 5 * e) by ring; nra).
  assert (Y : Rabs y1 <= 105 / 100 * e) by lra.
  rewrite Rabs_mult, (Rabs_right 2) by lra. rewrite Rabs_mult. rewrite (Rabs_mult s). pose proof (Rabs_pos c). pose proof (Rabs_pos y1). pose proof (Rabs_pos s).
  assert (Rabs s * Rabs c <= Rabs c) by nra. assert (Rabs s * Rabs c * Rabs y1 <= Rabs c * (105 / 100 * e)) by (apply Rmult_le_compat; nra). lra.
Qed.
Lemma C1_small e k : 0 <= e <= 1 / 150 -> (1 <= k <= 6)%nat -> Rabs (arr (C1f e) k) <= e ^ k.
Proof.
  intros He Hk. rewrite C1_val.
  assert (X : forall m x, 0 <= e ^ m -> Rabs x <= 1 -> Rabs (e ^ m * x) <= e ^ m) by (intros m x P Q; rewrite Rabs_mult, (Rabs_right (e ^ m)) by lra; nra).
  assert (Y : forall m, 0 <= e ^ m) by (intros m; apply pow_le; lra).
  assert (E2 : 0 <= e ^ 2 <= 1 / 100) by nra. assert (E4 : 0 <= e ^ 4 <= 1 / 100) by (split; [apply Y|]; replace (e ^ 4) with (e ^ 2 * e ^ 2) by ring; nra).
  destruct k as [|[|[|[|[|[|[|k]]]]]]]; try lia.
  - replace (e * (- e ^ 4 + 6 * e ^ 2 - 16) / 32) with (e ^ 1 * ((- e ^ 4 + 6 * e ^ 2 - 16) / 32)) by field. apply X; [apply Y|apply Rabs_le; lra].
  - replace (e ^ 2 * (-9 * e ^ 4 + 64 * e ^ 2 - 128) / 2048) with (e ^ 2 * ((-9 * e ^ 4 + 64 * e ^ 2 - 128) / 2048)) by field. apply X; [apply Y|apply Rabs_le; lra].
  - replace (e ^ 3 * (9 * e ^ 2 - 16) / 768) with (e ^ 3 * ((9 * e ^ 2 - 16) / 768)) by field. apply X; [apply Y|apply Rabs_le; lra].
  - replace (e ^ 4 * (3 * e ^ 2 - 5) / 512) with (e ^ 4 * ((3 * e ^ 2 - 5) / 512)) by field. apply X; [apply Y|apply Rabs_le; lra].
  - replace (e ^ 5 * -7 / 1280) with (e ^ 5 * (-7 / 1280)) by field. apply X; [apply Y|apply Rabs_le; lra].
  - replace (e ^ 6 * -7 / 2048) with (e ^ 6 * (-7 / 2048)) by field. apply X; [apply Y|apply Rabs_le; lra].
Qed.
Lemma C2_small e k : 0 <= e <= 1 / 150 -> (1 <= k <= 6)%nat -> Rabs (arr (C2f e) k) <= e ^ k.
Proof.
  intros He Hk. rewrite C2_val.
  assert (X : forall m x, 0 <= e ^ m -> Rabs x <= 1 -> Rabs (e ^ m * x) <= e ^ m) by (intros m x P Q; rewrite Rabs_mult, (Rabs_right (e ^ m)) by lra; nra).
  assert (Y : forall m, 0 <= e ^ m) by (intros m; apply pow_le; lra).
  assert (E2 : 0 <= e ^ 2 <= 1 / 100) by nra. assert (E4 : 0 <= e ^ 4 <= 1 / 100) by (split; [apply Y|]; replace (e ^ 4) with (e ^ 2 * e ^ 2) by ring; nra).
  destruct k as [|[|[|[|[|[|[|k]]]]]]]; try lia.
  - replace (e * (e ^ 4 + 2 * e ^ 2 + 16) / 32) with (e ^ 1 * ((e ^ 4 + 2 * e ^ 2 + 16) / 32)) by field. apply X; [apply Y|apply Rabs_le; lra].
  - replace (e ^ 2 * (35 * e ^ 4 + 64 * e ^ 2 + 384) / 2048) with (e ^ 2 * ((35 * e ^ 4 + 64 * e ^ 2 + 384) / 2048)) by field. apply X; [apply Y|apply Rabs_le; lra].
  - replace (e ^ 3 * (15 * e ^ 2 + 80) / 768) with (e ^ 3 * ((15 * e ^ 2 + 80) / 768)) by field. apply X; [apply Y|apply Rabs_le; lra].
  - replace (e ^ 4 * (7 * e ^ 2 + 35) / 512) with (e ^ 4 * ((7 * e ^ 2 + 35) / 512)) by field. apply X; [apply Y|apply Rabs_le; lra].
  - replace (e ^ 5 * 63 / 1280) with (e ^ 5 * (63 / 1280)) by field. apply X; [apply Y|apply Rabs_le; lra].
  - replace (e ^ 6 * 77 / 2048) with (e ^ 6 * (77 / 2048)) by field. apply X; [apply Y|apply Rabs_le; lra].
Qed.
Lemma A12_near e : 0 <= e <= 1 / 150 -> 1 <= 1 + A1m1f e <= 101 / 100 /\ 99 / 100 <= 1 + A2m1f e <= 1.
Proof.
  intros He. rewrite A1_val, A2_val by lra. assert (E2 : 0 <= e ^ 2 <= e / 150) by nra. assert (E4 : 0 <= e ^ 4 <= e / 150) by (split; [apply pow_le; lra|]; replace (e ^ 4) with (e ^ 2 * e ^ 2) by ring; nra).
  assert (E6 : 0 <= e ^ 6 <= e / 150) by (split; [apply pow_le; lra|]; replace (e ^ 6) with (e ^ 2 * e ^ 4) by ring; nra).
  split; split; [apply Rmult_le_reg_r with (1 - e)|apply Rmult_le_reg_r with (1 - e)|apply Rmult_le_reg_r with (1 + e)|apply Rmult_le_reg_r with (1 + e)]; try lra; unfold Rdiv; rewrite ?(Rmult_assoc _ (/ _)), ?Rinv_l by lra; lra.
Qed.
(** The reduced latitude, in the open quadrant. *)
Lemma reduced_Uq g lat : oblate g -> k_tiny <= cos (radians lat) -> exists U, reduced g lat = (sin U, cos U) /\ - (PI / 2) < U < PI / 2 /\ cos (radians lat) <= cos U /\ reduces (gd_f g) (radians lat) U.
Proof.
  intros O HT. destruct (reduced_U g lat O HT) as (V & E & CV & (h & Hh & H1 & H2) & _). pose proof (SIN_bound V) as SB. pose proof (sc1 V) as SV. pose proof (sc1 (radians lat)) as SL. pose proof (oblate_f1 g O) as Ff. pose proof O as (_ & F & F1 & _).
  assert (SS : sin (asin (sin V)) = sin V) by (apply sin_asin; lra). assert (CS : cos (asin (sin V)) = cos V) by (rewrite cos_asin by lra; rewrite Rsqr_pow2; replace (1 - sin V ^ 2) with (cos V ^ 2) by nra; apply sqrt_pow2; lra).
  exists (asin (sin V)). rewrite SS, CS. pose proof (asin_bound (sin V)) as AB. split; [exact E|]. split.
  - split; [destruct (Req_dec (asin (sin V)) (- (PI / 2))) as [Z|]; [|lra]; rewrite Z, cos_neg, cos_PI2 in CS; lra|destruct (Req_dec (asin (sin V)) (PI / 2)) as [Z|]; [|lra]; rewrite Z, cos_PI2 in CS; lra].
  - split; [|exists h; rewrite SS, CS; auto]. rewrite <- H2. assert (h ^ 2 <= 1). { replace (h ^ 2) with ((sin V * h) ^ 2 + (cos V * h) ^ 2) by (replace ((sin V * h) ^ 2 + (cos V * h) ^ 2) with (h ^ 2 * (sin V * sin V + cos V * cos V)) by ring; rewrite SV; ring). rewrite H1, H2. assert ((1 - gd_f g) ^ 2 <= 1) by nra. pose proof (pow2_ge_0 (sin (radians lat))). nra. }
    assert (h <= 1) by nra. nra.
Qed.

(** ** From the pole *)
Definition pole_shift (x : R) : R := atan (x * k_tiny).
Lemma tiny_small : k_tiny <= / 1000.
Proof. rewrite tiny_eq. apply Rinv_le_contravar; simpl; lra. Qed.
Lemma atan_mvt y : 0 < y -> exists c, 0 < c < y /\ atan y = / (1 + c ^ 2) * y.
Proof.
  intros H. destruct (MVT_cor2 atan (fun x => / (1 + x ^ 2)) 0 y H) as (c & E & C). { intros c _. apply derivable_pt_lim_atan. }
  exists c. split; [exact C|]. rewrite atan_0, !Rminus_0_r in E. exact E.
Qed.
Lemma atan_abs_le x : Rabs (atan x) <= Rabs x.
Proof.
  destruct (Req_dec x 0) as [-> |N]; [rewrite atan_0, Rabs_R0; lra|].
  assert (P : forall y, 0 < y -> 0 < atan y <= y). { intros y Hy. split; [rewrite <- atan_0; now apply atan_increasing|]. destruct (atan_mvt y Hy) as (c & C & ->). assert (/ (1 + c ^ 2) <= 1); [|nra]. apply Rmult_le_reg_r with (1 + c ^ 2); [nra|]. rewrite Rinv_l by nra. nra. }
  unfold Rabs at 2. destruct (Rcase_abs x) as [L|L].
  - destruct (P (- x) ltac:(lra)) as [A B]. rewrite atan_opp in A, B. rewrite Rabs_left by lra. exact B.
  - destruct (P x ltac:(lra)) as [A B]. rewrite Rabs_right by lra. exact B.
Qed.
Lemma atan_lo y : 0 <= y <= 1 / 10 -> 99 / 100 * y <= atan y.
Proof.
  intros H. destruct (Req_dec y 0) as [-> |N]; [rewrite atan_0; lra|]. destruct (atan_mvt y ltac:(lra)) as (c & C & ->).
  apply Rmult_le_compat_r; [lra|]. apply Rmult_le_reg_r with (1 + c ^ 2); [nra|]. rewrite Rinv_l by nra. nra.
Qed.
(** The meridian answer of the solver from latitude -90, in closed form: the arc is
    shortened by atan(2^-26 cos L). *)
Lemma canon_pole g B : oblate g -> gd_f g <= 1 / 100 -> 2 * k_tiny <= cos (radians B) ->
  exists U, - (PI / 2) < U < PI / 2 /\ cos (radians B) <= cos U /\ reduces (gd_f g) (radians B) U /\ forall L,
  canon g (-90) B L = (gd_b g * ((1 + A1m1f (gd_n g)) * ((U + PI / 2 - pole_shift (cos (radians L))) +
     (SinCosSeries true (sin U) (cos U) (arr (C1f (gd_n g))) nC1 - SinCosSeries true (-1) (cos (radians L) * k_tiny) (arr (C1f (gd_n g))) nC1))), (sin (radians L), cos (radians L)), (0, 1)).
Proof.
  intros O Hf HB. pose proof tiny_pos as TP. pose proof tiny_small as TS. destruct (reduced_Uq g B O ltac:(lra)) as (U & E2 & UR & CU & RU). exists U. split; [exact UR|]. split; [exact CU|]. split; [exact RU|]. intros L.
  pose proof O as (Hab & F & F1 & Bb & Ep & En & _). pose proof (oblate_f1 g O) as Ff.
  assert (E1 : reduced g (-90) = (-1, k_tiny)).
  { unfold reduced. rewrite sincosd_eq. replace (radians (-90)) with (- (PI / 2)) by (unfold radians; field). rewrite sin_neg, cos_neg, sin_PI2, cos_PI2. unfold norm2. replace (- (1) * gd_f1 g) with (- gd_f1 g) by ring. rewrite hypot_x0, Rabs_Ropp, Rabs_right by lra.
    replace (- gd_f1 g / gd_f1 g) with (-1) by (field; lra). replace (0 / gd_f1 g) with 0 by (field; lra). rewrite Rmax_left by lra. reflexivity. }
  unfold canon. rewrite E1, E2. assert (SF : sbet_fix (-1) k_tiny (sin U) (cos U) = sin U). { unfold sbet_fix. destruct (Rlt_dec _ _); [|reflexivity]. destruct (Req_EM_T _ _); [lra|reflexivity]. }
  rewrite SF. unfold Inverse_core. cbv zeta. destruct (Req_EM_T (-90) (-90)) as [_|X]; [|contradiction].
  set (cl := cos (radians L)). assert (CL : Rabs cl <= 1) by apply cos_abs1. replace 0.0 with 0 by lra. replace 1.0 with 1 by lra. rewrite !Rmult_1_l. set (d := pole_shift cl).
  assert (CT : Rabs (cl * k_tiny) <= k_tiny) by (rewrite Rabs_mult, (Rabs_right k_tiny) by lra; nra). assert (CT' := CT). apply Rabs_le_between in CT'. pose proof (SIN_bound U) as SB. pose proof (COS_bound U) as CB.
  assert (Y0 : 0 < cl * k_tiny * sin U - -1 * cos U). { assert (Rabs (cl * k_tiny * sin U) <= k_tiny * 1) by (apply abs_mul_le; [exact CT|apply sin_abs1]). apply Rabs_le_between in H. lra. }
  assert (DB : Rabs d <= k_tiny) by (unfold d, pole_shift; eapply Rle_trans; [apply atan_abs_le|exact CT]). apply Rabs_le_between in DB.
  pose proof (atan_bound (cl * k_tiny)) as AB. fold (pole_shift cl) in AB. fold d in AB. assert (CD : 0 < cos d) by (apply cos_gt_0; lra).
  assert (TD : cl * k_tiny = sin d / cos d) by (unfold d, pole_shift; rewrite <- (tan_atan (cl * k_tiny)) at 1; reflexivity).
  set (ps := U + PI / 2). assert (SP : sin ps = cos U) by (unfold ps; rewrite sin_plus, sin_PI2, cos_PI2; ring). assert (CP : cos ps = - sin U) by (unfold ps; rewrite cos_plus, sin_PI2, cos_PI2; ring).
  assert (YS : cl * k_tiny * sin U - -1 * cos U = / cos d * sin (ps - d)) by (rewrite sin_minus, SP, CP, TD; field; lra).
  assert (XS : cl * k_tiny * cos U + -1 * sin U = / cos d * cos (ps - d)) by (rewrite cos_minus, SP, CP, TD; field; lra).
  assert (IC : 0 < / cos d) by now apply Rinv_0_lt_compat. assert (SPD : 0 < sin (ps - d)) by (rewrite YS in Y0; nra).
  assert (PD : 0 < ps - d < PI).
  { split; apply Rnot_le_lt; intros X; [pose proof (sin_ge_0 (- (ps - d)) ltac:(lra) ltac:(unfold ps in *; lra)) as Q; rewrite sin_neg in Q; lra|].
    pose proof (sin_ge_0 (ps - d - PI) ltac:(lra) ltac:(unfold ps in *; lra)) as Q. rewrite sin_minus, sin_PI, cos_PI in Q. lra. }
  assert (SG : atan2 (Rmax 0 (cl * k_tiny * sin U - -1 * cos U)) (cl * k_tiny * cos U + -1 * sin U) = ps - d). { rewrite Rmax_right by (left; exact Y0). apply (atan2_unique _ _ (ps - d) (/ cos d) IC); [split; [|left; exact (proj2 PD)]|exact YS|exact XS]. pose proof PI_RGT_0. destruct PD. lra. }
  rewrite SG. set (dn1 := sqrt (1 + gd_ep2 g * (-1) ^ 2)). set (dn2 := sqrt (1 + gd_ep2 g * sin U ^ 2)). set (n := gd_n g) in *.
  assert (Hn : 0 <= n <= 1 / 150). { rewrite En. split; [apply Rmult_le_pos; [lra|left; apply Rinv_0_lt_compat; lra]|]. apply Rmult_le_reg_r with (2 - gd_f g); [lra|]. replace (gd_f g / (2 - gd_f g) * (2 - gd_f g)) with (gd_f g) by (field; lra). lra. }
  assert (Ep0 : 0 <= gd_ep2 g). { rewrite Ep. apply Rmult_le_pos; [nra|]. left. apply Rinv_0_lt_compat. nra. }
  destruct (dn_order g (-1) (sin U) Ep0 ltac:(nra)) as [D1 D2]. fold dn1 dn2 in D1, D2.
  unfold Lengths_out. cbv zeta. replace 1.0 with 1 by lra. change nC1 with 6%nat. change nC2 with 6%nat.
  destruct (A12_near n Hn) as [A1 A2].
  pose proof (series_small (sin U) (cos U) (arr (C1f n)) n (sin_abs1 U) (cos_abs1 U) Hn (fun k => C1_small n k Hn)) as B1. pose proof (series_small (sin U) (cos U) (arr (C2f n)) n (sin_abs1 U) (cos_abs1 U) Hn (fun k => C2_small n k Hn)) as B2.
  assert (M1 : Rabs (-1) <= 1) by (apply Rabs_le; lra). assert (CT1 : Rabs (cl * k_tiny) <= 1) by lra.
  pose proof (series_small (-1) (cl * k_tiny) (arr (C1f n)) n M1 CT1 Hn (fun k => C1_small n k Hn)) as B3. pose proof (series_small (-1) (cl * k_tiny) (arr (C2f n)) n M1 CT1 Hn (fun k => C2_small n k Hn)) as B4.
  assert (LE : forall x, Rabs x <= 1 -> 21 / 10 * n * Rabs x <= 2 / 100) by (intros x Hx; pose proof (Rabs_pos x); nra).
  apply (fun h => Rle_trans _ _ _ h (LE _ (cos_abs1 U))) in B1. apply (fun h => Rle_trans _ _ _ h (LE _ (cos_abs1 U))) in B2. apply (fun h => Rle_trans _ _ _ h (LE _ CT1)) in B3. apply (fun h => Rle_trans _ _ _ h (LE _ CT1)) in B4.
  set (b1 := SinCosSeries true (sin U) (cos U) (arr (C1f n)) 6) in *. set (b2 := SinCosSeries true (sin U) (cos U) (arr (C2f n)) 6) in *. set (b3 := SinCosSeries true (-1) (cl * k_tiny) (arr (C1f n)) 6) in *. set (b4 := SinCosSeries true (-1) (cl * k_tiny) (arr (C2f n)) 6) in *.
  apply Rabs_le_between in B1. apply Rabs_le_between in B2. apply Rabs_le_between in B3. apply Rabs_le_between in B4. pose proof PI_4 as P4.
  set (J := (A1m1f n - A2m1f n) * (ps - d) + ((1 + A1m1f n) * (b1 - b3) - (1 + A2m1f n) * (b2 - b4))).
  assert (JB : Rabs J <= 1).
  { unfold J. assert (X1 : Rabs ((A1m1f n - A2m1f n) * (ps - d)) <= 2 / 100 * 4) by (apply abs_mul_le; apply Rabs_le; lra). assert (X2 : Rabs ((1 + A1m1f n) * (b1 - b3)) <= 101 / 100 * (4 / 100)) by (apply abs_mul_le; apply Rabs_le; lra).
    assert (X3 : Rabs ((1 + A2m1f n) * (b2 - b4)) <= 1 * (4 / 100)) by (apply abs_mul_le; apply Rabs_le; lra). apply Rabs_le_between in X1. apply Rabs_le_between in X2. apply Rabs_le_between in X3. apply Rabs_le. lra. }
  assert (M : 0 <= dn2 * (cl * k_tiny * sin U) - dn1 * (-1 * cos U) - cl * k_tiny * cos U * J).
  { assert (X1 : Rabs (dn2 * (cl * k_tiny * sin U)) <= dn1 * (k_tiny * 1)) by (apply abs_mul_le; [rewrite Rabs_right; lra|apply abs_mul_le; [exact CT|apply sin_abs1]]).
    assert (X2 : Rabs (cl * k_tiny * cos U * J) <= k_tiny * cos U * 1) by (apply abs_mul_le; [apply abs_mul_le; [exact CT|rewrite Rabs_right; lra]|exact JB]). apply Rabs_le_between in X1. apply Rabs_le_between in X2. assert (X3 : dn1 * (k_tiny * 1) <= dn1 * (cos U / 2)) by (apply Rmult_le_compat_l; lra). assert (X4 : 1 * cos U <= dn1 * cos U) by (apply Rmult_le_compat_r; lra). assert (X5 : k_tiny * cos U <= / 1000 * cos U) by (apply Rmult_le_compat_r; lra). lra. }
  assert (BR : (if Rlt_dec (ps - d) 1 then true else if Rle_dec 0 (dn2 * (cl * k_tiny * sin U) - dn1 * (-1 * cos U) - cl * k_tiny * cos U * J) then true else false) = true) by (destruct (Rlt_dec _ _); [reflexivity|]; destruct (Rle_dec _ _); [reflexivity|contradiction]).
  rewrite BR. apply f_equal2; [apply f_equal2|]; [|reflexivity|reflexivity]. ring.
Qed.
