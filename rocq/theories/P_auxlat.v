(** C77-C80: how close latitude.py and lox.py come to the true rectifying,
    authalic and conformal latitudes, meridian arcs and rhumb lines. *)
From Coq Require Import List.
Import ListNotations.
From Verif Require Import PyMath M_ellipsoid M_rcurve M_rsphere M_latitude M_utils M_nvector M_lox Spec Spec_geodesic Spec_aux.
From Verif Require L_PyMath L_ell L_aer L_utils L_latitude L_latitude2 L_latitude3 L_vincenty L_series1 L_aux1 L_lox L_ecefacc2 L_vin3 L_aux2 L_aux7 L_aux8 L_aux10.
Open Scope R_scope.

(** The flattening is at most 1/10, and the third flattening. *)
Definition gentle (ell : option Ellipsoid) : Prop := ell_ok ell /\ 9 * ell_a ell <= 10 * ell_b ell.
Definition third_of (ell : option Ellipsoid) : R := third (ell_a ell) (ell_b ell).
(** Every named ellipsoid and the default one are gentle; f < 1/10 means n <= 1/19. *)
Theorem C77_models_gentle : (forall name e, from_name name = Ok e -> gentle (Some e)) /\ gentle None.
Proof.
  split.
  - intros name e He. destruct (L_utils.from_name_flat name e He) as [V F]. split; [exact V|exact F].
  - split; [exact I|]. cbn [ell_a ell_b]. lra.
Qed.
Theorem C77_third_range : forall ell, gentle ell -> 0 <= third_of ell <= 1 / 19.
Proof. intros ell [H F]. exact (L_aux7.n_range ell H F). Qed.

(** ** C77: rectifying latitude and meridian arcs *)
Theorem C77_meridian_length_exists : forall ell, gentle ell ->
  (exists s, meridian_length (ell_a ell) (ell_b ell) s) /\
  forall s s', meridian_length (ell_a ell) (ell_b ell) s -> meridian_length (ell_a ell) (ell_b ell) s' ->
    forall phi, - PI / 2 <= phi <= PI / 2 -> s phi = s' phi.
Proof.
  intros ell [H F]. split; [eexists; exact (L_aux7.length_ex ell H F)|]. intros s s' L L' phi Hp.
  rewrite (L_aux7.length_mer ell H F s L phi) by lra. rewrite (L_aux7.length_mer ell H F s' L' phi) by lra. reflexivity.
Qed.
Theorem C77_rectifying_accurate : forall ell deg s lat, gentle ell -> meridian_length (ell_a ell) (ell_b ell) s ->
  - quarter deg <= lat <= quarter deg -> let n := third_of ell in
  Rabs (as_rad deg (geodetic2rectifying lat ell deg) - rectifying_latitude s (as_rad deg lat)) <= n ^ 5 * (11 / 10 + 2 * n + 30000 * n ^ 3).
Proof.
  intros ell deg s lat [H F] L Hl n. change as_rad with rad_in. pose proof (L_latitude.rad_range deg lat Hl) as Hr.
  change (geodetic2rectifying lat ell deg) with (deg_out deg (geodetic2rectifying (rad_in deg lat) ell false)). rewrite L_PyMath.rad_in_deg_out.
  apply (L_aux8.rect_true ell H F s (rad_in deg lat) L). lra.
Qed.
Theorem C77_rectifying_inverse_accurate : forall ell deg s phi mu, gentle ell -> meridian_length (ell_a ell) (ell_b ell) s ->
  - PI / 2 <= phi <= PI / 2 -> as_rad deg mu = rectifying_latitude s phi -> let n := third_of ell in
  Rabs (as_rad deg (rectifying2geodetic mu ell deg) - phi) <= n ^ 5 * (71 / 10 + 13 * n + 67000 * n ^ 2).
Proof.
  intros ell deg s phi mu [H F] L Hp. change as_rad with rad_in. intros E n.
  change (rectifying2geodetic mu ell deg) with (deg_out deg (rectifying2geodetic (rad_in deg mu) ell false)). rewrite L_PyMath.rad_in_deg_out, E.
  apply (L_aux8.recti_true ell H F s phi L). lra.
Qed.
(** every latitude is a rectifying latitude, so the previous theorem covers every argument *)
Theorem C77_rectifying_onto : forall ell s mu, gentle ell -> meridian_length (ell_a ell) (ell_b ell) s ->
  - PI / 2 <= mu <= PI / 2 -> exists phi, - PI / 2 <= phi <= PI / 2 /\ rectifying_latitude s phi = mu.
Proof.
  intros ell s mu [H F] L Hm. destruct (L_aux8.rect_onto ell H F s mu L ltac:(lra)) as (x & Hx & E). exists x. split; [lra|exact E].
Qed.
Theorem C77_rectifying_round_trip : forall ell deg lat, gentle ell -> - quarter deg <= lat <= quarter deg -> let n := third_of ell in
  Rabs (as_rad deg (rectifying2geodetic (geodetic2rectifying lat ell deg) ell deg) - as_rad deg lat) <= n ^ 5 * (9 + 16 * n + 69500 * n ^ 2) /\
  Rabs (as_rad deg (geodetic2rectifying (rectifying2geodetic lat ell deg) ell deg) - as_rad deg lat) <= n ^ 5 * (12 + 21 * n + 96000 * n ^ 2).
Proof.
  intros ell deg lat [H F] Hl n. change as_rad with rad_in. pose proof (L_latitude.rad_range deg lat Hl) as Hr. pose proof (L_aux7.n_range ell H F) as Hn. fold (third_of ell) in Hn. fold n in Hn.
  assert (N5 : 0 <= n ^ 5) by (apply pow_le; lra). assert (N3 : 0 <= n ^ 3 <= 1 / 19 * n ^ 2) by (split; [apply pow_le; lra|replace (n ^ 3) with (n * n ^ 2) by ring; apply Rmult_le_compat_r; [apply pow_le|]; lra]). assert (N2 : 0 <= n ^ 2) by (apply pow_le; lra).
  set (x := rad_in deg lat) in *. split.
  - replace (rad_in deg (rectifying2geodetic (geodetic2rectifying lat ell deg) ell deg)) with (rectifying2geodetic (geodetic2rectifying x ell false) ell false).
    + pose proof (L_aux8.rect_round ell H F x ltac:(lra)) as Q. fold (third_of ell) in Q. fold n in Q. eapply Rle_trans; [exact Q|]. unfold L_aux2.recti_err, L_aux2.rect_err.
      replace (n ^ 5 * (71 / 10 + 13 * n + 67000 * n ^ 2) + 14 / 10 * (n ^ 5 * (11 / 10 + 2 * n + 30000 * n ^ 3))) with (n ^ 5 * ((71 / 10 + 13 * n + 67000 * n ^ 2) + 14 / 10 * (11 / 10 + 2 * n + 30000 * n ^ 3))) by ring. apply Rmult_le_compat_l; lra.
    + change (rectifying2geodetic (geodetic2rectifying lat ell deg) ell deg) with (deg_out deg (rectifying2geodetic (rad_in deg (deg_out deg (geodetic2rectifying x ell false))) ell false)). rewrite !L_PyMath.rad_in_deg_out. reflexivity.
  - replace (rad_in deg (geodetic2rectifying (rectifying2geodetic lat ell deg) ell deg)) with (geodetic2rectifying (rectifying2geodetic x ell false) ell false).
    + pose proof (L_aux8.recti_round ell H F x ltac:(lra)) as Q. fold (third_of ell) in Q. fold n in Q. eapply Rle_trans; [exact Q|]. unfold L_aux2.recti_err, L_aux2.rect_err.
      replace (n ^ 5 * (11 / 10 + 2 * n + 30000 * n ^ 3) + 14 / 10 * (n ^ 5 * (71 / 10 + 13 * n + 67000 * n ^ 2))) with (n ^ 5 * ((11 / 10 + 2 * n + 30000 * n ^ 3) + 14 / 10 * (71 / 10 + 13 * n + 67000 * n ^ 2))) by ring. apply Rmult_le_compat_l; lra.
    + change (geodetic2rectifying (rectifying2geodetic lat ell deg) ell deg) with (deg_out deg (geodetic2rectifying (rad_in deg (deg_out deg (rectifying2geodetic x ell false))) ell false)). rewrite !L_PyMath.rad_in_deg_out. reflexivity.
Qed.
(** meridian_arc has a relative error of order n^4 *)
Theorem C77_meridian_arc_accurate : forall ell deg s lat1 lat2, gentle ell -> meridian_length (ell_a ell) (ell_b ell) s ->
  - quarter deg <= lat1 <= quarter deg -> - quarter deg <= lat2 <= quarter deg -> let n := third_of ell in
  let d := Rabs (s (as_rad deg lat2) - s (as_rad deg lat1)) in
  Rabs (meridian_arc lat1 lat2 ell deg - d) <= n ^ 4 * (1 / 64 + 11 * n + 21 * n ^ 2 + 9000 * n ^ 4) * d.
Proof.
  intros ell deg s lat1 lat2 [H F] L H1 H2 n d. change as_rad with rad_in in *. rewrite L_lox.arc_rad. pose proof (L_latitude.rad_range deg lat1 H1). pose proof (L_latitude.rad_range deg lat2 H2).
  apply (L_aux8.arc_true ell H F s); [exact L|lra|lra].
Qed.
Theorem C77_meridian_dist_accurate : forall ell deg s lat, gentle ell -> meridian_length (ell_a ell) (ell_b ell) s ->
  - quarter deg <= lat <= quarter deg -> let n := third_of ell in let d := Rabs (s (as_rad deg lat)) in
  Rabs (meridian_dist lat ell deg - d) <= n ^ 4 * (1 / 64 + 11 * n + 21 * n ^ 2 + 9000 * n ^ 4) * d.
Proof.
  intros ell deg s lat G L Hl n d. assert (Z : - quarter deg <= 0 <= quarter deg) by (destruct deg; cbn [quarter]; pose proof PI_RGT_0; lra).
  pose proof (C77_meridian_arc_accurate ell deg s 0 lat G L Z Hl) as Q. cbv zeta in Q. replace (as_rad deg 0) with 0 in Q by (destruct deg; cbn [as_rad]; lra). rewrite (proj1 L), Rminus_0_r in Q. exact Q.
Qed.
(** rsphere.rectifying: a quarter of its great circle is the quadrant of the ellipsoid *)
Theorem C77_rectifying_radius : forall ell s, gentle ell -> meridian_length (ell_a ell) (ell_b ell) s -> let n := third_of ell in
  Rabs (rectifying ell * (PI / 2) - s (PI / 2)) <= n ^ 4 * (1 / 64 + 11 * n + 21 * n ^ 2 + 9000 * n ^ 4) * s (PI / 2).
Proof.
  intros ell s G L n. pose proof PI_RGT_0 as PP. pose proof (C77_meridian_dist_accurate ell false s (PI / 2) G L ltac:(cbn [quarter]; lra)) as Q. cbv zeta in Q. cbn [as_rad] in Q. destruct G as [H F].
  assert (SP : 0 <= s (PI / 2)). { rewrite (L_aux7.length_mer ell H F s L) by lra. apply Rmult_le_pos; [left; apply (L_aux7.A_pos ell H)|]. pose proof (L_aux10.len_mono ell H F 0 (PI / 2) ltac:(lra)) as X. cbv beta in X. rewrite (L_aux7.mer0_0) in X. pose proof (L_aux7.A_pos ell H). nra. }
  rewrite Rabs_right with (r := s (PI / 2)) in Q by lra. fold n in Q. replace (rectifying ell * (PI / 2)) with (meridian_dist (PI / 2) ell false); [exact Q|].
  unfold meridian_dist, meridian_arc. cbn [rad_in]. destruct (L_latitude2.rectifying_props ell H false) as ((_ & Z0 & Z1 & _) & _). cbn [quarter] in Z0, Z1. rewrite Z0, Z1, Rminus_0_r, Rabs_right by lra. reflexivity.
Qed.
Example C77_hypotheses_met : gentle None /\ (exists s, meridian_length (ell_a None) (ell_b None) s) /\ - quarter true <= 45 <= quarter true /\ 0 < third_of None.
Proof.
  pose proof (proj2 C77_models_gentle) as G. split; [exact G|]. split; [apply (C77_meridian_length_exists None G)|]. split; [cbn [quarter]; lra|].
  unfold third_of, third. cbn [ell_a ell_b]. apply Rdiv_lt_0_compat; lra.
Qed.

(** ** C78: authalic latitude *)
Theorem C78_zone_area_exists : forall ell, gentle ell ->
  (exists S, zone_area (ell_a ell) (ell_b ell) S) /\
  forall S S', zone_area (ell_a ell) (ell_b ell) S -> zone_area (ell_a ell) (ell_b ell) S' ->
    forall phi, - PI / 2 <= phi <= PI / 2 -> S phi = S' phi.
Proof.
  intros ell [H F]. split; [eexists; exact (L_aux7.zone_ex ell H F)|]. intros s s' L L' phi Hp.
  rewrite (L_aux7.zone_ar ell H F s L phi) by lra. rewrite (L_aux7.zone_ar ell H F s' L' phi) by lra. reflexivity.
Qed.
Theorem C78_authalic_accurate : forall ell deg S lat, gentle ell -> zone_area (ell_a ell) (ell_b ell) S ->
  - quarter deg <= lat <= quarter deg -> let n := third_of ell in
  Rabs (as_rad deg (geodetic2authalic lat ell deg) - authalic_latitude S (as_rad deg lat)) <= n ^ 4 * (33 + 230 * n).
Proof.
  intros ell deg s lat [H F] L Hl n. change as_rad with rad_in. pose proof (L_latitude.rad_range deg lat Hl) as Hr.
  change (geodetic2authalic lat ell deg) with (deg_out deg (geodetic2authalic (rad_in deg lat) ell false)). rewrite L_PyMath.rad_in_deg_out.
  apply (L_aux8.auth_true ell H F s (rad_in deg lat) L). lra.
Qed.
Theorem C78_authalic_inverse_accurate : forall ell deg S phi xi, gentle ell -> zone_area (ell_a ell) (ell_b ell) S ->
  - PI / 2 <= phi <= PI / 2 -> as_rad deg xi = authalic_latitude S phi -> let n := third_of ell in
  Rabs (as_rad deg (authalic2geodetic xi ell deg) - phi) <= n ^ 4 * (40 + 630 * n).
Proof.
  intros ell deg s phi mu [H F] L Hp. change as_rad with rad_in. intros E n.
  change (authalic2geodetic mu ell deg) with (deg_out deg (authalic2geodetic (rad_in deg mu) ell false)). rewrite L_PyMath.rad_in_deg_out, E.
  apply (L_aux8.authi_true ell H F s phi L). lra.
Qed.
Theorem C78_authalic_onto : forall ell S xi, gentle ell -> zone_area (ell_a ell) (ell_b ell) S ->
  - PI / 2 <= xi <= PI / 2 -> exists phi, - PI / 2 <= phi <= PI / 2 /\ authalic_latitude S phi = xi.
Proof.
  intros ell s mu [H F] L Hm. destruct (L_aux8.auth_onto ell H F s mu L ltac:(lra)) as (x & Hx & E). exists x. split; [lra|exact E].
Qed.
Theorem C78_authalic_round_trip : forall ell deg lat, gentle ell -> - quarter deg <= lat <= quarter deg -> let n := third_of ell in
  Rabs (as_rad deg (authalic2geodetic (geodetic2authalic lat ell deg) ell deg) - as_rad deg lat) <= n ^ 4 * (83 + 930 * n) /\
  Rabs (as_rad deg (geodetic2authalic (authalic2geodetic lat ell deg) ell deg) - as_rad deg lat) <= n ^ 4 * (85 + 1050 * n).
Proof.
  intros ell deg lat [H F] Hl n. change as_rad with rad_in. pose proof (L_latitude.rad_range deg lat Hl) as Hr. set (x := rad_in deg lat) in *. split.
  - replace (rad_in deg (authalic2geodetic (geodetic2authalic lat ell deg) ell deg)) with (authalic2geodetic (geodetic2authalic x ell false) ell false).
    + apply (L_aux8.auth_round ell H F x ltac:(lra)).
    + change (authalic2geodetic (geodetic2authalic lat ell deg) ell deg) with (deg_out deg (authalic2geodetic (rad_in deg (deg_out deg (geodetic2authalic x ell false))) ell false)). rewrite !L_PyMath.rad_in_deg_out. reflexivity.
  - replace (rad_in deg (geodetic2authalic (authalic2geodetic lat ell deg) ell deg)) with (geodetic2authalic (authalic2geodetic x ell false) ell false).
    + apply (L_aux8.authi_round ell H F x ltac:(lra)).
    + change (geodetic2authalic (authalic2geodetic lat ell deg) ell deg) with (deg_out deg (geodetic2authalic (rad_in deg (deg_out deg (authalic2geodetic x ell false))) ell false)). rewrite !L_PyMath.rad_in_deg_out. reflexivity.
Qed.
(** The mean of one point (meanm) is that point, up to the same error. *)
Theorem C78_single_point_mean : forall ell deg lat lon, gentle ell -> - quarter deg <= lat <= quarter deg -> - half deg < lon <= half deg ->
  cos (geodetic2authalic (as_rad deg lat) ell false) <> 0 ->
  exists latbar, meanm [lat] [lon] ell deg = (latbar, lon) /\
  Rabs (as_rad deg latbar - as_rad deg lat) <= third_of ell ^ 4 * (83 + 930 * third_of ell).
Proof.
  intros ell deg lat lon [H F] Hl Ho C. change as_rad with rad_in in *. pose proof (L_latitude.rad_range deg lat Hl) as Hr. pose proof PI_RGT_0 as HP.
  set (x := rad_in deg lat) in *. destruct (L_latitude2.authalic_props ell H false) as [(_ & _ & A1 & A2) Mo]. cbn [quarter] in A1, A2, Mo.
  assert (Fl : 3 * ell_a ell <= 4 * ell_b ell). { destruct (L_ell.ell_pos ell H). lra. }
  assert (B2 : - PI / 2 < geodetic2authalic x ell false < PI / 2).
  { assert (N1 : x <> PI / 2) by (intros E; apply C; rewrite E, A1, cos_PI2; reflexivity). assert (N2 : x <> - (PI / 2)) by (intros E; apply C; rewrite E, A2, cos_neg, cos_PI2; reflexivity).
    specialize (Mo Fl). pose proof (Mo x (PI / 2) ltac:(lra) ltac:(lra) ltac:(lra)) as U. pose proof (Mo (- (PI / 2)) x ltac:(lra) ltac:(lra) ltac:(lra)) as W. cbv beta in U, W. rewrite A1 in U. rewrite A2 in W. lra. }
  assert (B1 : - PI < rad_in deg lon <= PI) by (destruct deg; cbn in *; unfold radians; nra).
  unfold meanm. cbn [map combine]. fold x. pose proof (L_utils.cart_sph_cart (rad_in deg lon) (geodetic2authalic x ell false) 1 ltac:(lra) B1 B2) as Q.
  destruct (M_utils.sph2cart (rad_in deg lon) (geodetic2authalic x ell false) 1) as [[u v] w]. unfold py_sum. cbn [fold_left]. rewrite !Rplus_0_l, Q.
  eexists. split; [apply f_equal2; [reflexivity|apply L_PyMath.deg_out_rad_in]|]. rewrite L_PyMath.rad_in_deg_out. apply (L_aux8.auth_round ell H F x). lra.
Qed.
Example C78_hypotheses_met : gentle None /\ (exists S, zone_area (ell_a None) (ell_b None) S) /\ - quarter true <= -60 <= quarter true /\ - half true < 100 <= half true /\
  cos (geodetic2authalic (as_rad true 0) None false) <> 0.
Proof.
  pose proof (proj2 C77_models_gentle) as G. split; [exact G|]. split; [apply (C78_zone_area_exists None G)|]. split; [cbn [quarter]; lra|]. split; [cbn [half]; lra|].
  destruct (L_latitude2.authalic_props None (proj1 G) false) as ((_ & A0 & _) & _). replace (as_rad true 0) with 0 by (cbn [as_rad]; lra). rewrite A0, cos_0. lra.
Qed.

(** ** C79: conformal and isometric latitude are inverted *)
Theorem C79_conformal_round_trip : forall ell deg lat, gentle ell -> - quarter deg <= lat <= quarter deg -> let n := third_of ell in
  Rabs (as_rad deg (conformal2geodetic (geodetic2conformal lat ell deg) ell deg) - as_rad deg lat) <= n ^ 5 * (173 + 20900 * n) /\
  Rabs (as_rad deg (geodetic2conformal (conformal2geodetic lat ell deg) ell deg) - as_rad deg lat) <= 152 / 100 * (n ^ 5 * (173 + 20900 * n)).
Proof.
  intros ell deg lat [H F] Hl n. change as_rad with rad_in. pose proof (L_latitude.rad_range deg lat Hl) as Hr. set (x := rad_in deg lat) in *. split.
  - replace (rad_in deg (conformal2geodetic (geodetic2conformal lat ell deg) ell deg)) with (conformal2geodetic (geodetic2conformal x ell false) ell false).
    + apply (L_aux8.conf_round ell H F x ltac:(lra)).
    + change (conformal2geodetic (geodetic2conformal lat ell deg) ell deg) with (deg_out deg (conformal2geodetic (rad_in deg (deg_out deg (geodetic2conformal x ell false))) ell false)). rewrite !L_PyMath.rad_in_deg_out. reflexivity.
  - replace (rad_in deg (geodetic2conformal (conformal2geodetic lat ell deg) ell deg)) with (geodetic2conformal (conformal2geodetic x ell false) ell false).
    + apply (L_aux8.confi_round ell H F x ltac:(lra)).
    + change (geodetic2conformal (conformal2geodetic lat ell deg) ell deg) with (deg_out deg (geodetic2conformal (rad_in deg (deg_out deg (conformal2geodetic x ell false))) ell false)). rewrite !L_PyMath.rad_in_deg_out. reflexivity.
Qed.
(** Also through the isometric latitude, which is infinite at and within 1e-9 of a pole. *)
Theorem C79_isometric_round_trip : forall ell deg lat, gentle ell -> - quarter deg <= lat <= quarter deg -> let n := third_of ell in
  Rabs (as_rad deg (isometric2geodetic (geodetic2isometric lat ell deg) ell deg) - as_rad deg lat) <=
  if Rlt_dec (1 / 1000000000) (cos (as_rad deg lat)) then n ^ 5 * (173 + 20900 * n) else 168 / 10 ^ 11.
Proof.
  intros ell deg lat G Hl n. change as_rad with rad_in. pose proof (L_latitude.rad_range deg lat Hl) as Hr. destruct (Rlt_dec (1 / 1000000000) (cos (rad_in deg lat))) as [C|C].
  - rewrite (L_latitude3.isometric2geodetic_conformal ell (proj1 G) lat deg Hl (or_introl C)). apply (C79_conformal_round_trip ell deg lat G Hl).
  - destruct G as [H F]. set (x := rad_in deg lat) in *. assert (C0 : 0 <= cos x) by (apply cos_ge_0; lra). pose proof PI_RGT_0 as PP.
    assert (E : Rabs (rad_in deg (isometric2geodetic (geodetic2isometric lat ell deg) ell deg) - x) = PI / 2 - Rabs x).
    { unfold geodetic2isometric. cbv zeta. fold x. destruct (Rle_dec (Rabs (cos x)) COS_EPS) as [_|B]; [|exfalso; apply B; rewrite Rabs_right by lra; unfold COS_EPS in *; lra].
      pose proof (L_latitude.rad_range false (PI / 2) ltac:(cbn [quarter]; lra)) as _.
      assert (K : forall v, ell_ok ell -> conformal2geodetic v ell false = v -> rad_in deg (deg_out deg (conformal2geodetic v ell false)) = v) by (intros v _ Ev; rewrite L_PyMath.rad_in_deg_out; exact Ev).
      destruct (L_latitude2.conformal2_props ell H false) as [(_ & _ & P1 & P2) _]. cbn [quarter] in P1, P2.
      destruct (Rlt_dec x 0) as [N|N]; destruct deg; cbn [xdeg_out isometric2geodetic]; unfold isometric2geodetic; rewrite ?atan_0; rewrite L_PyMath.rad_in_deg_out.
      - replace (2 * 0 - PI / 2) with (- (PI / 2)) by ring. rewrite P2, (Rabs_left x), Rabs_left1; lra.
      - replace (2 * 0 - PI / 2) with (- (PI / 2)) by ring. rewrite P2, (Rabs_left x), Rabs_left1; lra.
      - replace (2 * (PI / 2) - PI / 2) with (PI / 2) by ring. rewrite P1, (Rabs_right x), Rabs_right; lra.
      - replace (2 * (PI / 2) - PI / 2) with (PI / 2) by ring. rewrite P1, (Rabs_right x), Rabs_right; lra. }
    rewrite E. assert (A0 : Rabs x <= PI / 2) by (apply Rabs_le; lra). pose proof (Rabs_pos x) as A1.
    assert (S : sin (PI / 2 - Rabs x) = cos x). { rewrite <- cos_shift. replace (PI / 2 - (PI / 2 - Rabs x)) with (Rabs x) by ring. unfold Rabs. destruct (Rcase_abs x); [apply cos_neg|reflexivity]. }
    destruct (Req_dec (Rabs x) 0) as [Z|Z].
    + exfalso. apply C. assert (Ex : x = 0) by (destruct (Req_dec x 0); [assumption|apply Rabs_no_R0 in H0; contradiction]). rewrite Ex, cos_0. lra.
    + pose proof (L_ecefacc2.arc_sin (PI / 2 - Rabs x)) as Q. rewrite S, (Rabs_right (PI / 2 - Rabs x)), (Rabs_right (cos x)) in Q by lra. specialize (Q ltac:(lra)). simpl. lra.
Qed.
Example C79_hypotheses_met : gentle None /\ - quarter true <= 89 <= quarter true.
Proof. split; [exact (proj2 C77_models_gentle)|]. cbn [quarter]. lra. Qed.

(** ** C80: rhumb lines *)
(** They exist from every point off the poles, in every direction, until they reach a pole ... *)
Theorem C80_rhumb_lines_exist : forall ell s az phi0 lam0 s1 s2, gentle ell -> meridian_length (ell_a ell) (ell_b ell) s ->
  - PI / 2 < phi0 < PI / 2 -> s1 <= 0 <= s2 ->
  Rabs (s phi0 + s1 * cos az) < s (PI / 2) -> Rabs (s phi0 + s2 * cos az) < s (PI / 2) ->
  exists phi lam, phi 0 = phi0 /\ lam 0 = lam0 /\ rhumb_line (ell_a ell) (ell_b ell) az phi lam s1 s2.
Proof.
  intros ell s az phi0 lam0 s1 s2 [H F] L Hp Hs B1 B2. pose proof PI_RGT_0. rewrite (L_aux7.length_mer ell H F s L phi0), (L_aux7.length_mer ell H F s L (PI / 2)) in B1, B2 by lra.
  apply (L_aux10.rhumb_exists ell H F az phi0 lam0 s1 s2); [lra|exact Hs|exact B1|exact B2].
Qed.
(** ... and join any two points off the poles, with any prescribed longitudes. *)
Theorem C80_rhumb_lines_join : forall ell p1 l1 p2 l2, gentle ell -> - PI / 2 < p1 < PI / 2 -> - PI / 2 < p2 < PI / 2 -> (p1 <> p2 \/ l1 <> l2) ->
  exists az L phi lam, 0 < L /\ rhumb_line (ell_a ell) (ell_b ell) az phi lam 0 L /\ phi 0 = p1 /\ lam 0 = l1 /\ phi L = p2 /\ lam L = l2.
Proof. intros ell p1 l1 p2 l2 [H F] H1 H2 D. apply (L_aux10.rhumb_joins ell H F p1 l1 p2 l2); [lra|lra|exact D]. Qed.
(** loxodrome_inverse gives the azimuth of the rhumb line that joins the points
    with the longitudes as given exactly, and its length to within a relative error. *)
Theorem C80_inverse_accurate : forall ell deg az phi lam L lat1 lon1 lat2 lon2, gentle ell -> 0 < L ->
  rhumb_line (ell_a ell) (ell_b ell) az phi lam 0 L ->
  as_rad deg lat1 = phi 0 -> as_rad deg lon1 = lam 0 -> as_rad deg lat2 = phi L -> as_rad deg lon2 = lam L ->
  1 / 10 ^ 9 < cos (phi 0) -> 1 / 10 ^ 9 < cos (phi L) -> let n := third_of ell in
  exists dist az', loxodrome_inverse lat1 lon1 lat2 lon2 ell deg = Some (dist, az') /\
    cos (as_rad deg az') = cos az /\ sin (as_rad deg az') = sin az /\
    (1 / 10 ^ 9 <= Rabs (cos az) -> Rabs (dist - L) <= n ^ 4 * (1 / 64 + 11 * n + 21 * n ^ 2 + 9000 * n ^ 4) * L) /\
    (Rabs (cos az) < 1 / 10 ^ 9 -> Rabs (lam L - lam 0) <= PI -> Rabs (dist - L) <= 4 / 10 ^ 9 * L).
Proof.
  intros ell deg az phi lam L lat1 lon1 lat2 lon2 [H F] HL RL E1 E2 E3 E4 C1 C2 n. replace (1 / 10 ^ 9) with (1 / 1000000000) in * by (simpl; lra).
  apply (L_aux10.inverse_true ell H F az phi lam 0 L RL deg lat1 lon1 lat2 lon2 L); try assumption; lra.
Qed.
(** loxodrome_direct: the latitude is right to order n^4.  If the azimuth is
    not within 1e-9 of east or west, the returned point lies exactly on the
    rhumb line, at a path length that is off by at most [delta]; otherwise the
    longitude is right to 1e-9 times the distance. *)
Theorem C80_direct_accurate : forall ell deg az phi lam s1 s2 lat1 lon1 rng az', gentle ell ->
  rhumb_line (ell_a ell) (ell_b ell) az phi lam s1 s2 -> s1 <= 0 -> 0 <= rng <= s2 ->
  as_rad deg lat1 = phi 0 -> as_rad deg lon1 = lam 0 -> as_rad deg az' = az ->
  let n := third_of ell in let err := n ^ 4 * (9 / 100 + 67 * n + 128 * n ^ 2 + 72000 * n ^ 3) in
  exists lat2 lon2, loxodrome_direct lat1 lon1 rng az' ell deg = Ok (lat2, lon2) /\
    Rabs (as_rad deg lat2 - phi rng) <= err /\
    (Rabs (cos az) < 1 / 10 ^ 9 -> exists l, lon2 = Some l /\
       parallel (phi 0) ell false * Rabs (as_rad deg l - lam rng) <= 1 / 10 ^ 9 * rng * (1 + Rabs (lam rng - lam 0))) /\
    (forall delta, 1 / 10 ^ 9 <= Rabs (cos az) -> delta * Rabs (cos az) = 6 / 5 * ((ell_a ell + ell_b ell) / 2) * err ->
       s1 <= rng - delta -> rng + delta <= s2 -> (forall s, s1 <= s <= s2 -> 1 / 10 ^ 9 < cos (phi s)) ->
       exists l sg, lon2 = Some l /\ Rabs (sg - rng) <= delta /\ as_rad deg lat2 = phi sg /\ as_rad deg l = lam sg).
Proof.
  intros ell deg az phi lam s1 s2 lat1 lon1 rng az' [H F] RL S1 [R1 R2] E1 E2 E3 n err. replace (1 / 10 ^ 9) with (1 / 1000000000) in * by (simpl; lra). change as_rad with rad_in in *.
  pose proof (L_aux10.direct_true ell H F az phi lam s1 s2 RL deg lat1 lon1 rng az' S1 R2 R1 E1 E2 E3) as Q. replace (1 / 10 ^ 9) with (1 / 1000000000) in Q by (simpl; lra). exact Q.
Qed.
(** Such lines and points: from 0 N 0 E along azimuth 45 degrees for one metre. *)
Example C80_hypotheses_met : gentle None /\ (exists phi lam, rhumb_line (ell_a None) (ell_b None) (PI / 4) phi lam (-1) 2 /\ as_rad true 0 = phi 0 /\ as_rad true 0 = lam 0) /\ 1 / 10 ^ 9 <= Rabs (cos (PI / 4)).
Proof.
  pose proof (proj2 C77_models_gentle) as G. split; [exact G|]. destruct (C77_meridian_length_exists None G) as [[s L] _]. pose proof PI_RGT_0 as PP. pose proof L_vincenty.pi_gt3 as P3.
  assert (A6 : 6300000 < (ell_a None + ell_b None) / 2) by (cbn [ell_a ell_b]; lra).
  assert (SB : 3 < s (PI / 2)). { rewrite (L_aux7.length_mer None (proj1 G) (proj2 G) s L) by lra. pose proof (L_aux10.f_steep _ _ (L_aux7.mer0_D _ (L_aux7.n_range None (proj1 G) (proj2 G))) ) as X.
    specialize (X ltac:(intros t; apply L_aux1.mrad_pos; [exact (L_aux7.n_range None (proj1 G) (proj2 G))|apply L_series1.cos_abs1]) 0 (PI / 2) ltac:(lra)). rewrite L_aux7.mer0_0 in X. nra. }
  assert (C4 : 1 / 2 < cos (PI / 4) <= 1). { split; [|apply COS_bound]. rewrite <- cos_PI3. apply cos_decreasing_1; lra. }
  split.
  - destruct (C80_rhumb_lines_exist None s (PI / 4) 0 0 (-1) 2 G L ltac:(lra) ltac:(lra)) as (phi & lam & E1 & E2 & RL).
    + rewrite (proj1 L). apply Rabs_def1; lra.
    + rewrite (proj1 L). apply Rabs_def1; lra.
    + exists phi, lam. split; [exact RL|]. rewrite E1, E2. cbn [as_rad]. lra.
  - rewrite Rabs_right by lra. simpl. lra.
Qed.
