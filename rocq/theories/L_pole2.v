(** geodesic_inverse from or to a pole: the geodesic. *)
From Coq Require Import Reals Lra Lia Psatz.
From Coquelicot Require Import Coquelicot.
From Verif Require Import PyMath M_karney L_PyMath L_karney L_karney2 L_karney3 L_karney4 L_karney5 L_karney6 L_karney7 L_karney8 Spec Spec_geodesic L_series1 L_geodesic3 L_geodesic4 L_geodesic5 L_geodesic6 L_geodesic7 L_geodesic8 L_geodesic9 L_geodesic10 L_geodesic11 L_geodesic12 L_pole1.
Open Scope R_scope.

(** The meridian that leaves the south pole with azimuth [az]. *)
Lemma pole_conn a f phi2 U az : 0 < a -> 0 <= f < 1 -> reduces f phi2 U -> conn a (a * (1 - f)) (- (PI / 2)) az phi2 0 (arc_dist a f 1 (- (PI / 2)) (U + PI / 2)) az.
Proof.
  intros Ha F RU.
  assert (R1 : reduces f (- (PI / 2)) (- (PI / 2))) by (exists (1 - f); rewrite sin_neg, cos_neg, sin_PI2, cos_PI2; split; [lra|split; ring]).
  assert (SP : sin (U + PI / 2) = cos U) by (rewrite sin_plus, sin_PI2, cos_PI2; ring). assert (CP : cos (U + PI / 2) = - sin U) by (rewrite cos_plus, sin_PI2, cos_PI2; ring).
  pose proof (exact_conn a f (- (PI / 2)) az (- (PI / 2)) 1 (- (PI / 2)) (U + PI / 2) U az 0 phi2 Ha F R1 ltac:(ring) ltac:(rewrite cos_neg, cos_PI2; ring) RU) as C.
  replace (az + arc_turn f (- (PI / 2)) az 1 (- (PI / 2)) (U + PI / 2)) with az in C by (unfold arc_turn; rewrite cos_neg, cos_PI2; ring).
  apply C; intros l.
  - unfold L_vincenty4.gc_move, unit_normal, north_axis, east_axis. rewrite SP, CP, sin_neg, cos_neg, sin_PI2, cos_PI2, cos_plus, sin_plus. apply vec_eq; cbn [vadd vscale fst snd]; ring.
  - unfold gc_tangent, heading_vector, unit_normal, north_axis, east_axis. rewrite SP, CP, sin_neg, cos_neg, sin_PI2, cos_PI2, cos_plus, sin_plus, sin_0, cos_0. apply vec_eq; cbn [vadd vscale fst snd]; ring.
Qed.
Lemma arc_dist_pole g U : oblate g -> gd_f g <= 1 / 100 -> - (PI / 2) < U < PI / 2 ->
  Rabs (arc_dist (gd_a g) (gd_f g) 1 (- (PI / 2)) (U + PI / 2) - gd_b g * ((1 + A1m1f (gd_n g)) * ((U + PI / 2) + SinCosSeries true (sin U) (cos U) (arr (C1f (gd_n g))) nC1))) <= 80 * gd_b g * gd_n g ^ 7.
Proof.
  intros O Hf UR. pose proof O as (Hab & F & F1 & B & Ep & En & _). pose proof (oblate_f1 g O) as Ff. set (f := gd_f g) in *.
  assert (Hn : 0 <= gd_n g <= 1 / 150). { rewrite En. split; [apply Rmult_le_pos; [lra|left; apply Rinv_0_lt_compat; lra]|]. apply Rmult_le_reg_r with (2 - f); [lra|]. replace (f / (2 - f) * (2 - f)) with f by (field; lra). lra. }
  assert (Ep0 : 0 <= gd_ep2 g). { rewrite Ep. apply Rmult_le_pos; [nra|]. left. apply Rinv_0_lt_compat. nra. }
  assert (KK : 1 ^ 2 * (f * (2 - f) / (1 - f) ^ 2) = gd_ep2 g) by (rewrite Ep, F1; fold f; field; lra).
  unfold arc_dist. rewrite KK, <- F1, <- B. replace (- (PI / 2) + (U + PI / 2)) with U by ring.
  pose proof (distance_series (gd_ep2 g) (gd_n g) Ep0 (eq_sym (eps_n g O)) ltac:(lra) (- (PI / 2)) U) as DS. replace (U - - (PI / 2)) with (U + PI / 2) in DS by ring. rewrite (Rabs_right (U + PI / 2)) in DS by lra.
  assert (D0 : dser (gd_n g) (- (PI / 2)) = (1 + A1m1f (gd_n g)) * (- (PI / 2))).
  { unfold dser, nC1. rewrite sin6. assert (Z : forall k : Z, sin (2 * (IZR k * - (PI / 2))) = 0). { intros k. replace (2 * (IZR k * - (PI / 2))) with (IZR (- k) * PI) by (rewrite opp_IZR; field). apply sin_eq_0_1. exists (- k)%Z. reflexivity. }
    pose proof (Z 1%Z) as Z1. rewrite Rmult_1_l in Z1. rewrite Z1, (Z 2%Z), (Z 3%Z), (Z 4%Z), (Z 5%Z), (Z 6%Z). ring. }
  assert (DU : dser (gd_n g) U - dser (gd_n g) (- (PI / 2)) = (1 + A1m1f (gd_n g)) * ((U + PI / 2) + SinCosSeries true (sin U) (cos U) (arr (C1f (gd_n g))) nC1)) by (rewrite D0; unfold dser; ring).
  rewrite <- DU. rewrite <- Rmult_minus_distr_l, Rabs_mult. assert (Hb : 0 < gd_b g) by (rewrite B; apply Rmult_lt_0_compat; lra). rewrite (Rabs_right (gd_b g)) by lra. replace (80 * gd_b g * gd_n g ^ 7) with (gd_b g * (80 * gd_n g ^ 7)) by ring. apply Rmult_le_compat_l; [lra|].
  rewrite Rabs_minus_sym. eapply Rle_trans; [exact DS|]. assert (0 <= gd_n g ^ 7) by (apply pow_le; lra). pose proof PI_4. nra.
Qed.
Lemma canon_pole_conn g B L : oblate g -> gd_f g <= 1 / 100 -> 2 * k_tiny <= cos (radians B) ->
  let '(s, (sa1, ca1), (sa2, ca2)) := canon g (-90) B L in
  sa1 ^ 2 + ca1 ^ 2 = 1 /\ sa2 ^ 2 + ca2 ^ 2 = 1 /\
  exists d lx, conn (gd_a g) (gd_b g) (radians (-90)) (atan2 sa1 ca1) (radians B) (atan2 sa2 ca2) d lx /\
    Rabs (d - s) <= gd_b g * (80 * gd_n g ^ 7 + 105 / 100 * k_tiny) /\ Rabs (lx - radians L) <= 0.
Proof.
  intros O Hf HB. destruct (canon_pole g B O Hf HB) as (U & UR & CU & RU & E). rewrite E. clear E. pose proof O as (Hab & F & F1 & Bb & Ep & En & _). pose proof (oblate_f1 g O) as Ff.
  assert (SQ : sin (radians L) ^ 2 + cos (radians L) ^ 2 = 1) by (pose proof (sc1 (radians L)); lra). split; [exact SQ|]. split; [ring|]. destruct (unit_polar _ _ SQ) as [AS AC].
  set (cl := cos (radians L)) in *. assert (CL : Rabs cl <= 1) by apply cos_abs1. pose proof tiny_pos as TP. pose proof tiny_small as TS.
  exists (arc_dist (gd_a g) (gd_f g) 1 (- (PI / 2)) (U + PI / 2)), (radians L). split; [|split; [|rewrite Rminus_diag_eq, Rabs_R0 by reflexivity; lra]].
  - replace (radians (-90)) with (- (PI / 2)) by (unfold radians; field). replace (atan2 0 1) with 0 by (symmetry; apply (atan2_unique 0 1 0 1); rewrite ?sin_0, ?cos_0; pose proof PI_RGT_0; lra).
    apply conn_lam with (atan2 (sin (radians L)) cl); [exact AS|exact AC|]. rewrite Bb, F1. apply pole_conn; try assumption; lra.
  - pose proof (arc_dist_pole g U O Hf UR) as AD. set (n := gd_n g) in *.
    assert (Hn : 0 <= n <= 1 / 150). { rewrite En. split; [apply Rmult_le_pos; [lra|left; apply Rinv_0_lt_compat; lra]|]. apply Rmult_le_reg_r with (2 - gd_f g); [lra|]. replace (gd_f g / (2 - gd_f g) * (2 - gd_f g)) with (gd_f g) by (field; lra). lra. }
    set (q := arc_dist _ _ _ _ _) in *. set (b1 := SinCosSeries true (sin U) (cos U) _ _) in *.
    assert (CT : Rabs (cl * k_tiny) <= k_tiny) by (rewrite Rabs_mult, (Rabs_right k_tiny) by lra; nra).
    pose proof (series_small (-1) (cl * k_tiny) (arr (C1f n)) n ltac:(apply Rabs_le; lra) ltac:(lra) Hn (fun k => C1_small n k Hn)) as B3. change 6%nat with nC1 in B3. set (b3 := SinCosSeries true (-1) _ _ _) in *.
    assert (DB : Rabs (pole_shift cl) <= k_tiny) by (unfold pole_shift; eapply Rle_trans; [apply atan_abs_le|exact CT]). set (d := pole_shift cl) in *.
    destruct (A12_near n Hn) as [A1 _]. assert (B3' : Rabs b3 <= 2 / 100 * k_tiny). { eapply Rle_trans; [exact B3|]. pose proof (Rabs_pos (cl * k_tiny)). nra. }
    match goal with |- Rabs ?x <= _ => replace x with ((q - gd_b g * ((1 + A1m1f n) * (U + PI / 2 + b1))) + gd_b g * ((1 + A1m1f n) * (d + b3))) by ring end.
    assert (Hb : 0 < gd_b g) by (rewrite Bb; apply Rmult_lt_0_compat; lra).
    eapply Rle_trans; [apply Rabs_triang|]. rewrite (Rmult_plus_distr_l (gd_b g) (80 * n ^ 7)). apply Rplus_le_compat; [eapply Rle_trans; [exact AD|]; right; ring|].
    rewrite Rabs_mult, (Rabs_right (gd_b g)) by lra. apply Rmult_le_compat_l; [lra|]. apply Rle_trans with (101 / 100 * (k_tiny + 2 / 100 * k_tiny)); [|lra]. apply abs_mul_le; [rewrite Rabs_right; lra|]. eapply Rle_trans; [apply Rabs_triang|]. lra.
Qed.
(** From the canonical problem to the original one. *)
Lemma inverse_of_canon g lat1 lon1 lat2 lon2 D E : 0 < gd_b g <= gd_a g -> -90 <= lat1 <= 90 ->
  (let '(s, (sa1, ca1), (sa2, ca2)) := canon g (inv_A lat1 lat2) (inv_B lat1 lat2) (Rabs (AngNormalize (lon2 - lon1))) in
   sa1 ^ 2 + ca1 ^ 2 = 1 /\ sa2 ^ 2 + ca2 ^ 2 = 1 /\
   exists d lx, conn (gd_a g) (gd_b g) (radians (inv_A lat1 lat2)) (atan2 sa1 ca1) (radians (inv_B lat1 lat2)) (atan2 sa2 ca2) d lx /\
     Rabs (d - s) <= D /\ Rabs (lx - radians (Rabs (AngNormalize (lon2 - lon1)))) <= E) ->
  let '(s, az1, az2) := Inverse g lat1 lon1 lat2 lon2 in
  exists d lx, conn (gd_a g) (gd_b g) (radians lat1) (radians az1) (radians lat2) (radians az2) d lx /\
    Rabs (d - s) <= D /\ Rabs (lx - radians (AngNormalize (lon2 - lon1))) <= E.
Proof.
  intros Hb H1 C. rewrite Inverse_eq by lra. cbv zeta. set (dl := AngNormalize (lon2 - lon1)) in *.
  assert (Sp : is_sign (lpos dl)) by (destruct (lpos_cases dl) as [-> | ->]; [now left|now right]).
  assert (DL : forall lx, Rabs (lpos dl * lx - radians dl) = Rabs (lx - radians (Rabs dl))).
  { intros lx. rewrite <- (lpos_abs dl). destruct Sp as [-> | ->]; rewrite ?Rmult_1_l; [reflexivity|]. replace (-1 * dl) with (- dl) by ring. rewrite radians_opp. rewrite <- Rabs_Ropp. f_equal. ring. }
  assert (Sn : forall x, is_sign (lneg x)) by (intros x; destruct (lneg_cases x) as [-> | ->]; [now left|now right]).
  unfold inv_A, inv_B, far_lat, near_lat in C. destruct (Rlt_dec (Rabs lat1) (Rabs lat2)) as [S|S].
  - destruct (canon g (lat2 * lneg lat2) (lat1 * lneg lat2) (Rabs dl)) as [[s [sa1 ca1]] [sa2 ca2]]. cbn [out]. destruct C as (U1 & U2 & d & lx & CN & D1 & D2).
    assert (Sm : is_sign (- lpos dl)) by (destruct Sp as [-> | ->]; [right|left]; lra).
    exists d, (lpos dl * lx). split; [|split; [exact D1|rewrite DL; exact D2]].
    destruct (unit_azi sa2 ca2 (lpos dl) (- lneg lat2) Sp ltac:(destruct (Sn lat2) as [-> | ->]; [right|left]; lra) U2) as [Y1 Y2].
    destruct (unit_azi sa1 ca1 (lpos dl) (- lneg lat2) Sp ltac:(destruct (Sn lat2) as [-> | ->]; [right|left]; lra) U1) as [Z1 Z2].
    rewrite Ropp_mult_distr_r, (Ropp_mult_distr_r ca1).
    apply conn_reverse in CN; [|lra|lra].
    destruct (unit_polar _ _ U1) as [W1 W2]. destruct (unit_polar _ _ U2) as [W3 W4].
    pose proof (conn_mirror (gd_a g) (gd_b g) (- lpos dl) (lneg lat2) _ _ _ _ (radians (atan2d (sa2 * lpos dl) (ca2 * - lneg lat2))) (radians (atan2d (sa1 * lpos dl) (ca1 * - lneg lat2))) _ _ Sm (Sn lat2)
      ltac:(rewrite Y1, neg_sin, W3; ring) ltac:(rewrite Y2, neg_cos, W4; ring) ltac:(rewrite Z1, neg_sin, W1; ring) ltac:(rewrite Z2, neg_cos, W2; ring) CN) as CM.
    replace (lneg lat2 * radians (lat1 * lneg lat2)) with (radians lat1) in CM. 2: { destruct (Sn lat2) as [-> | ->]; unfold radians; field. }
    replace (lneg lat2 * radians (lat2 * lneg lat2)) with (radians lat2) in CM. 2: { destruct (Sn lat2) as [-> | ->]; unfold radians; field. }
    replace (- lpos dl * - lx) with (lpos dl * lx) in CM by ring. exact CM.
  - destruct (canon g (lat1 * lneg lat1) (lat2 * lneg lat1) (Rabs dl)) as [[s [sa1 ca1]] [sa2 ca2]]. cbn [out]. destruct C as (U1 & U2 & d & lx & CN & D1 & D2).
    exists d, (lpos dl * lx). split; [|split; [exact D1|rewrite DL; exact D2]].
    destruct (unit_azi sa2 ca2 (lpos dl) (lneg lat1) Sp (Sn lat1) U2) as [Y1 Y2].
    destruct (unit_azi sa1 ca1 (lpos dl) (lneg lat1) Sp (Sn lat1) U1) as [Z1 Z2].
    destruct (unit_polar _ _ U1) as [W1 W2]. destruct (unit_polar _ _ U2) as [W3 W4].
    pose proof (conn_mirror (gd_a g) (gd_b g) (lpos dl) (lneg lat1) _ _ _ _ (radians (atan2d (sa1 * lpos dl) (ca1 * lneg lat1))) (radians (atan2d (sa2 * lpos dl) (ca2 * lneg lat1))) _ _ Sp (Sn lat1)
      ltac:(rewrite Z1, W1; ring) ltac:(rewrite Z2, W2; ring) ltac:(rewrite Y1, W3; ring) ltac:(rewrite Y2, W4; ring) CN) as CM.
    replace (lneg lat1 * radians (lat1 * lneg lat1)) with (radians lat1) in CM. 2: { destruct (Sn lat1) as [-> | ->]; unfold radians; field. }
    replace (lneg lat1 * radians (lat2 * lneg lat1)) with (radians lat2) in CM. 2: { destruct (Sn lat1) as [-> | ->]; unfold radians; field. }
    exact CM.
Qed.
(** ** The pole and itself *)
Lemma canon_pole_self g : oblate g -> gd_f g <= 1 / 100 -> 19 / 10 * gd_b g * k_tiny <= dist_of (canon g (-90) (-90) 180).
Proof.
  intros O Hf. pose proof tiny_pos as TP. pose proof tiny_small as TS. pose proof O as (Hab & F & F1 & Bb & Ep & En & _). pose proof (oblate_f1 g O) as Ff. assert (Hb : 0 < gd_b g) by (rewrite Bb; apply Rmult_lt_0_compat; lra).
  assert (E1 : reduced g (-90) = (-1, k_tiny)).
  { unfold reduced. rewrite sincosd_eq. replace (radians (-90)) with (- (PI / 2)) by (unfold radians; field). rewrite sin_neg, cos_neg, sin_PI2, cos_PI2. unfold norm2. replace (- (1) * gd_f1 g) with (- gd_f1 g) by ring. rewrite hypot_x0, Rabs_Ropp, Rabs_right by lra.
    replace (- gd_f1 g / gd_f1 g) with (-1) by (field; lra). replace (0 / gd_f1 g) with 0 by (field; lra). rewrite Rmax_left by lra. reflexivity. }
  unfold canon. rewrite E1. assert (SF : sbet_fix (-1) k_tiny (-1) k_tiny = -1). { unfold sbet_fix. destruct (Rlt_dec _ _); [|reflexivity]. destruct (Req_EM_T _ _); [|reflexivity]. destruct (Rlt_dec (-1) 0); lra. }
  rewrite SF. unfold Inverse_core. cbv zeta. destruct (Req_EM_T (-90) (-90)) as [_|X]; [|contradiction]. replace (radians 180) with PI by (unfold radians; field). rewrite sin_PI, cos_PI. replace 0.0 with 0 by lra. replace 1.0 with 1 by lra.
  set (d := atan k_tiny). assert (D1 : Rabs d <= k_tiny) by (unfold d; eapply Rle_trans; [apply atan_abs_le|rewrite Rabs_right; lra]). assert (D2 : 99 / 100 * k_tiny <= d) by (apply atan_lo; lra). apply Rabs_le_between in D1.
  pose proof (atan_bound k_tiny) as AB. fold d in AB. assert (CD : 0 < cos d) by (apply cos_gt_0; lra). assert (TD : k_tiny = sin d / cos d) by (unfold d; rewrite <- (tan_atan k_tiny) at 1; reflexivity). pose proof (sc1 d) as SC.
  assert (SG : atan2 (Rmax 0 (-1 * k_tiny * -1 - -1 * (1 * k_tiny))) (-1 * k_tiny * (1 * k_tiny) + -1 * -1) = 2 * d).
  { rewrite Rmax_right by lra. pose proof PI_RGT_0. pose proof PI2_3_2. apply (atan2_unique _ _ _ (/ (cos d * cos d))); [apply Rinv_0_lt_compat; nra|lra| |].
    - rewrite sin_2a. rewrite TD. field. lra.
    - rewrite cos_2a. rewrite TD. replace 1 with (sin d * sin d + cos d * cos d) at 4 by exact SC. field. lra. }
  rewrite SG. set (n := gd_n g) in *.
  assert (Hn : 0 <= n <= 1 / 150). { rewrite En. split; [apply Rmult_le_pos; [lra|left; apply Rinv_0_lt_compat; lra]|]. apply Rmult_le_reg_r with (2 - gd_f g); [lra|]. replace (gd_f g / (2 - gd_f g) * (2 - gd_f g)) with (gd_f g) by (field; lra). lra. }
  unfold Lengths_out. cbv zeta. destruct (Rlt_dec (2 * d) 1) as [_|X]; [|lra]. unfold dist_of. cbn [fst]. replace 1.0 with 1 by lra. rewrite !Rmult_1_l. replace (-1 * k_tiny) with (- k_tiny) by ring.
  pose proof (series_small (-1) k_tiny (arr (C1f n)) n ltac:(apply Rabs_le; lra) ltac:(rewrite Rabs_right; lra) Hn (fun k => C1_small n k Hn)) as B1. pose proof (series_small (-1) (- k_tiny) (arr (C1f n)) n ltac:(apply Rabs_le; lra) ltac:(rewrite Rabs_Ropp, Rabs_right; lra) Hn (fun k => C1_small n k Hn)) as B2.
  change 6%nat with nC1 in B1, B2. rewrite Rabs_Ropp in B2. rewrite (Rabs_right k_tiny) in B1, B2 by lra. set (b1 := SinCosSeries true (-1) k_tiny _ _) in *. set (b2 := SinCosSeries true (-1) (- k_tiny) _ _) in *. destruct (A12_near n Hn) as [A1 _].
  assert (NB : 21 / 10 * n * k_tiny <= 14 / 1000 * k_tiny) by (apply Rmult_le_compat_r; lra). apply Rabs_le_between in B1. apply Rabs_le_between in B2.
  assert (K : 19 / 10 * k_tiny <= 2 * d + (b1 - b2)) by lra. set (w := 2 * d + (b1 - b2)) in *. replace (19 / 10 * gd_b g * k_tiny) with (19 / 10 * k_tiny * gd_b g) by ring. apply Rmult_le_compat_r; [lra|]. nra.
Qed.

(** Two opposite meridians. *)
Lemma canon_pole_spread g B : oblate g -> gd_f g <= 1 / 100 -> 2 * k_tiny <= cos (radians B) ->
  19 / 10 * gd_b g * k_tiny <= dist_of (canon g (-90) B 180) - dist_of (canon g (-90) B 0).
Proof.
  intros O Hf HB. destruct (canon_pole g B O Hf HB) as (U & UR & CU & RU & E). rewrite !E. clear E. unfold dist_of. cbn [fst].
  replace (radians 180) with PI by (unfold radians; field). replace (radians 0) with 0 by (unfold radians; field). rewrite cos_PI, cos_0.
  pose proof tiny_pos as TP. pose proof tiny_small as TS. pose proof O as (Hab & F & F1 & Bb & Ep & En & _). pose proof (oblate_f1 g O) as Ff. assert (Hb : 0 < gd_b g) by (rewrite Bb; apply Rmult_lt_0_compat; lra).
  set (n := gd_n g) in *. assert (Hn : 0 <= n <= 1 / 150). { rewrite En. split; [apply Rmult_le_pos; [lra|left; apply Rinv_0_lt_compat; lra]|]. apply Rmult_le_reg_r with (2 - gd_f g); [lra|]. replace (gd_f g / (2 - gd_f g) * (2 - gd_f g)) with (gd_f g) by (field; lra). lra. }
  unfold pole_shift. rewrite !Rmult_1_l. replace (-1 * k_tiny) with (- k_tiny) by ring. rewrite atan_opp. set (d := atan k_tiny).
  assert (D2 : 99 / 100 * k_tiny <= d) by (apply atan_lo; lra).
  pose proof (series_small (-1) k_tiny (arr (C1f n)) n ltac:(apply Rabs_le; lra) ltac:(rewrite Rabs_right; lra) Hn (fun k => C1_small n k Hn)) as B1. pose proof (series_small (-1) (- k_tiny) (arr (C1f n)) n ltac:(apply Rabs_le; lra) ltac:(rewrite Rabs_Ropp, Rabs_right; lra) Hn (fun k => C1_small n k Hn)) as B2.
  change 6%nat with nC1 in B1, B2. rewrite Rabs_Ropp in B2. rewrite (Rabs_right k_tiny) in B1, B2 by lra. set (b1 := SinCosSeries true (-1) k_tiny _ _) in *. set (b2 := SinCosSeries true (-1) (- k_tiny) _ _) in *. destruct (A12_near n Hn) as [A1 _].
  set (bu := SinCosSeries true (sin U) (cos U) _ _). assert (NB : 21 / 10 * n * k_tiny <= 14 / 1000 * k_tiny) by (apply Rmult_le_compat_r; lra). apply Rabs_le_between in B1. apply Rabs_le_between in B2.
  assert (K : 19 / 10 * k_tiny <= 2 * d + (b1 - b2)) by lra. set (w := 2 * d + (b1 - b2)) in *.
  match goal with |- _ <= ?x => replace x with (gd_b g * ((1 + A1m1f n) * w)) by (unfold w; ring) end. replace (19 / 10 * gd_b g * k_tiny) with (gd_b g * (19 / 10 * k_tiny)) by ring. apply Rmult_le_compat_l; [lra|]. nra.
Qed.
