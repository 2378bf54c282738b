(** Karney direct solver: exact cases. *)
From Coq Require Import Lia Psatz.
From Verif Require Import PyMath L_PyMath M_ellipsoid M_time M_karney Spec L_karney L_karney2 L_karney3 L_karney4.
From Verif Require L_ecef L_vincenty L_vincenty3 L_vincenty4 L_ell.
Open Scope R_scope.

(** The solver of an oblate ellipsoid. *)
Definition oblate (g : Geodesic) : Prop :=
  0 < gd_b g <= gd_a g /\ 0 <= gd_f g < 1 /\ gd_f1 g = 1 - gd_f g /\ gd_b g = gd_a g * gd_f1 g /\
  gd_ep2 g = gd_f g * (2 - gd_f g) / gd_f1 g ^ 2 /\ gd_n g = gd_f g / (2 - gd_f g) /\
  gd_A3x g = compute_A3x (gd_n g) /\ gd_C3x g = compute_C3x (gd_n g).
Lemma get_oblate ell : ell_ok ell -> oblate (get_geodesic ell) /\ gd_a (get_geodesic ell) = ell_a ell /\ gd_b (get_geodesic ell) = ell_b ell.
Proof.
  intros H. destruct (L_ell.ell_pos ell H) as [Hb Ha]. pose proof (L_ell.ell_f ell H) as F.
  unfold oblate, get_geodesic, geodesic_init. rewrite L_ell.resolve_a, F. cbn [gd_a gd_b gd_f gd_f1 gd_ep2 gd_n gd_A3x gd_C3x].
  replace 1.0 with 1 by lra. replace 2.0 with 2 by lra.
  assert (E : ell_a ell * (1 - (ell_a ell - ell_b ell) / ell_a ell) = ell_b ell) by (field; lra). rewrite E.
  assert (Q : 0 <= (ell_a ell - ell_b ell) / ell_a ell) by (apply Rmult_le_pos; [lra|left; apply Rinv_0_lt_compat; lra]).
  assert (Q' : (ell_a ell - ell_b ell) / ell_a ell < 1) by (apply Rmult_lt_reg_r with (ell_a ell); [lra|]; unfold Rdiv; rewrite Rmult_assoc, Rinv_l; lra).
  repeat split; lra || reflexivity.
Qed.
Lemma oblate_f1 g : oblate g -> 0 < gd_f1 g <= 1.
Proof. intros (_ & F & -> & _). lra. Qed.

Lemma Direct_zero_equator g lon1 azi1 : oblate g -> Direct g 0 lon1 azi1 0 = (0, AngNormalize lon1, AngNormalize azi1).
Proof.
  intros O. pose proof (oblate_f1 g O) as F. pose proof tiny_pos. 
  assert (T1 : k_tiny <= 1). { rewrite tiny_eq. apply Rmult_le_reg_r with (2 ^ 26); [apply pow_lt; lra|]. rewrite Rinv_l by (apply pow_nonzero; lra). rewrite Rmult_1_l. apply pow_R1_Rle. lra. }
  assert (R0 : radians 0 = 0) by (unfold radians, Rdiv; ring).
  apply Direct_zero; [lra|lra|rewrite R0, cos_0; exact T1|].
  intros k2 eps ss cs ca0 S1 S2 S3 S4 _ _ _ Ek. destruct (reduced_eq g 0 ltac:(lra) ltac:(rewrite R0, cos_0; lra)) as (h & hp & E1 & _ & _).
  rewrite E1, R0, sin_0 in S1. apply zero_arc_axis. destruct (Req_dec ca0 0) as [Z|Z]; [destruct (S4 Z) as [-> _]; ring|].
  assert (ss = 0) as ->; [|ring]. apply Rmult_eq_reg_l with ca0; [|exact Z]. rewrite S1. unfold Rdiv. ring.
Qed.
(** Due east or west: cos(azimuth) = 0. *)
Lemma Direct_zero_eastwest g lat1 lon1 azi1 : oblate g -> -90 < lat1 < 90 -> k_tiny <= cos (radians lat1) -> cos (radians azi1) = 0 ->
  Direct g lat1 lon1 azi1 0 = (lat1, AngNormalize lon1, AngNormalize azi1).
Proof.
  intros O HL T C. pose proof (oblate_f1 g O) as F. apply Direct_zero; [lra|lra|exact T|].
  intros k2 eps ss cs ca0 S1 S2 S3 S4 _ _ _ Ek. apply zero_arc_axis. destruct (Req_dec ca0 0) as [Z|Z]; [destruct (S4 Z) as [-> _]; ring|].
  assert (cs = 0) as ->; [|ring]. apply Rmult_eq_reg_l with ca0; [|exact Z]. rewrite S2, C. ring.
Qed.
Lemma Direct_zero_sphere g lat1 lon1 azi1 : spherical g -> -90 < lat1 < 90 -> k_tiny <= cos (radians lat1) ->
  Direct g lat1 lon1 azi1 0 = (lat1, AngNormalize lon1, AngNormalize azi1).
Proof.
  intros S HL T. pose proof S as (F0 & F1 & P & _). apply Direct_zero; [lra|lra|exact T|].
  intros k2 eps ss cs ca0 _ _ _ _ _ _ -> ->. rewrite P, Rmult_0_r, eps_0. now apply zero_arc_sphere.
Qed.
(** The pole of a sphere: the returned latitude is not 90. *)
Lemma Direct_zero_pole g lon1 : spherical g ->
  fst (fst (Direct g 90 lon1 0 0)) = degrees (atan (2 ^ 26)).
Proof.
  intros S. pose proof S as (F0 & F1 & P & _). unfold Direct. rewrite sincosd_norm, AngRound_id.
  assert (R0 : radians 0 = 0) by (unfold radians, Rdiv; ring). assert (R9 : radians 90 = PI/2) by (unfold radians; field).
  unfold reduced. rewrite sincosd_eq, R0, R9, sin_0, cos_0, sin_PI2, cos_PI2, F1, Rmult_1_r. unfold norm2.
  rewrite hypot_x0, Rabs_R1. replace (1 / 1) with 1 by field. replace (0 / 1) with 0 by field. pose proof tiny_pos as TP.
  rewrite Rmax_left by lra. cbv zeta. rewrite !Rmult_0_l, hypot_x0, Rabs_R1, P, Rmult_0_r, eps_0, !Rmult_1_l.
  unfold sig_pair. destruct (Req_EM_T 1 0); [lra|]. unfold norm2. set (r := hypot 1 k_tiny).
  assert (Rp : 0 < r) by (apply hypot_pos; left; lra).
  change (Direct_sig12 g 0 0 (1 / r) (k_tiny / r) 0) with (zero_arc g 0 0 (1 / r) (k_tiny / r)).
  rewrite (zero_arc_sphere g _ _ _ S). rewrite (Direct_end_sphere g _ _ _ _ _ _ _ _ S). cbv zeta. rewrite cos_0, sin_0. cbn [fst].
  replace (1 * (k_tiny / r * 1 - 1 / r * 0)) with (k_tiny / r) by (unfold Rdiv; ring). rewrite (hypot_comm 0), hypot_x0.
  assert (TR : 0 < k_tiny / r) by (apply Rdiv_lt_0_compat; lra). rewrite Rabs_right by lra.
  destruct (Req_EM_T _ 0); [lra|]. rewrite atan2_pos by lra. f_equal. f_equal.
  replace (1 * (1 / r * 1 + k_tiny / r * 0) / (k_tiny / r)) with (/ k_tiny) by (field; split; lra). rewrite tiny_eq. apply Rinv_inv.
Qed.

(** Along the equator of any ellipsoid: longitude advances by s12 / a. *)
Lemma A3f_0 g : oblate g -> A3f g 0 = 1.
Proof.
  intros (_ & _ & _ & _ & _ & _ & A & _). unfold A3f. rewrite A. unfold compute_A3x, down_range. cbn [nC3 Nat.sub seq rev app map Nat.min table_rows].
  unfold polyval, arr. cbn [polyval_loop nth Nat.add tbl A3coeff]. unfold tbl. cbn [nth A3coeff]. field.
Qed.
Lemma Direct_equator g lon1 azi1 s12 sgn : oblate g -> (sgn = 1 \/ sgn = -1) -> cos (radians azi1) = 0 -> sin (radians azi1) = sgn ->
  Direct g 0 lon1 azi1 s12 = (0, AngNormalize (lon1 + degrees (sgn * (s12 / gd_a g))), sgn * 90).
Proof.
  intros O Sg C S. pose proof O as ((Hb & Hab) & F & F1 & B & Ep & _). pose proof tiny_pos as TP.
  assert (T1 : k_tiny <= 1). { rewrite tiny_eq. apply Rmult_le_reg_r with (2 ^ 26); [apply pow_lt; lra|]. rewrite Rinv_l by (apply pow_nonzero; lra). rewrite Rmult_1_l. apply pow_R1_Rle. lra. }
  assert (R0 : radians 0 = 0) by (unfold radians, Rdiv; ring).
  unfold Direct. rewrite sincosd_norm, AngRound_id, C, S. unfold reduced. rewrite sincosd_eq, R0, sin_0, cos_0, Rmult_0_l. unfold norm2.
  assert (h01 : hypot 0 1 = 1) by (rewrite hypot_comm, hypot_x0; apply Rabs_R1). rewrite h01.
  replace (0 / 1) with 0 by field. replace (1 / 1) with 1 by field. rewrite Rmax_right by lra. cbv zeta.
  rewrite !Rmult_0_r, !Rmult_1_r, hypot_00. replace (0 ^ 2) with 0 by ring. rewrite !Rmult_0_l, eps_0.
  unfold sig_pair. destruct (Req_EM_T 0 0) as [_|]; [|contradiction]. destruct (Req_EM_T 0 0) as [_|]; [|contradiction].
  replace 0.0 with 0 by lra. replace 1.0 with 1 by lra.
  assert (SG : Direct_sig12 g 0 0 0 1 s12 = s12 / gd_b g).
  { unfold Direct_sig12. cbv zeta. rewrite A1_0. rewrite !(series_zero true _ _ (arr (C1f 0))) by (intros; apply series_coeffs_0).
    rewrite (series_zero true _ _ (arr (C1pf 0))) by (intros; apply series_coeffs_0).
    replace (gd_b g * (1.0 + 0)) with (gd_b g) by lra. destruct (Rlt_dec _ _); [|ring].
    set (q := s12 / gd_b g). replace ((1.0 + 0) * (q - (- 0 - 0) + (0 - 0)) - q) with 0 by lra. unfold Rdiv. ring. }
  rewrite SG. set (q := s12 / gd_b g). unfold Direct_end. cbv zeta. rewrite !Rmult_0_l, !Rmult_1_l, !Rplus_0_l, !Rminus_0_r.
  assert (hs : hypot sgn 0 = 1) by (rewrite hypot_x0; destruct Sg as [-> | ->]; [apply Rabs_R1|rewrite Rabs_left; lra]).
  rewrite hs. destruct (Req_EM_T 1 0); [lra|]. replace 1.0 with 1 by lra.
  assert (E : copysign 1 sgn = sgn) by (unfold copysign; rewrite (Rabs_right 1) by lra; destruct (Rlt_dec sgn 0); lra). rewrite E.
  assert (EE : forall x, sgn * (sgn * x) = x) by (intros; destruct Sg as [-> | ->]; ring). rewrite EE.
  rewrite !Rmult_0_r, atan2_00. rewrite (A3f_0 g O).
  apply f_equal2; [apply f_equal2|].
  - rewrite atan2d_eq, (atan2_unique _ _ 0 (gd_f1 g)); rewrite ?sin_0, ?cos_0; pose proof PI_RGT_0; try lra. unfold degrees. field. lra.
  - f_equal. f_equal. f_equal.
    assert (Z3 : forall ss cs, SinCosSeries true ss cs (arr (C3f g 0)) (nC3 - 1) = 0).
    { intros. apply series_zero. intros k. unfold arr. apply nth_zeros. unfold C3f. intros x [<-|H]; [reflexivity|].
      assert (G : forall j l y o m, In x (C3f_loop j l y o m 0) -> x = 0).
      { induction j as [|j IH]; intros l y o m; cbn [C3f_loop In]; [tauto|]. intros [<-|I]; [ring|]. eapply IH, I. }
      eapply G, H. }
    rewrite !Z3. rewrite atan2_00 || idtac.
    replace (atan2 0 1) with 0 by (symmetry; apply (atan2_unique _ _ 0 1); rewrite ?sin_0, ?cos_0; pose proof PI_RGT_0; lra).
    replace (s12 / gd_a g) with (q * gd_f1 g) by (unfold q; rewrite B; field; rewrite F1; lra). rewrite F1. ring.
  - rewrite atan2d_eq. destruct Sg as [-> | ->].
    + rewrite (atan2_unique _ _ (PI/2) 1); rewrite ?sin_PI2, ?cos_PI2; pose proof PI_RGT_0; try lra. rewrite degrees_PI2. ring.
    + rewrite (atan2_unique _ _ (- (PI/2)) 1); rewrite ?sin_neg, ?cos_neg, ?sin_PI2, ?cos_PI2; pose proof PI_RGT_0; try lra.
      unfold degrees. field. lra.
Qed.
