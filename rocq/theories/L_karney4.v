(** Karney direct solver: zero distance, the equator, output ranges. *)
From Coq Require Import Lia Psatz.
From Verif Require Import PyMath L_PyMath M_ellipsoid M_time M_karney Spec L_karney L_karney2 L_karney3.
From Verif Require L_ecef L_vincenty L_vincenty3 L_vincenty4 L_ell.
Open Scope R_scope.

Lemma degrees_range x lo hi : lo <= x <= hi -> degrees lo <= degrees x <= degrees hi.
Proof. intros H. unfold degrees. pose proof PI_RGT_0. split; apply Rmult_le_compat_r; try lra; left; apply Rinv_0_lt_compat; lra. Qed.
Lemma degrees_PI : degrees PI = 180.
Proof. unfold degrees. field. apply PI_neq0. Qed.
Lemma degrees_PI2 : degrees (PI/2) = 90.
Proof. unfold degrees. field. apply PI_neq0. Qed.
Lemma atan2d_range y x : -180 < atan2d y x <= 180.
Proof.
  rewrite atan2d_eq. pose proof (atan2_range y x) as H. pose proof PI_RGT_0. unfold degrees.
  assert (E : atan2 y x * (180 / PI) * PI = atan2 y x * 180) by (field; lra).
  split; [apply Rmult_lt_reg_r with PI|apply Rmult_le_reg_r with PI]; lra.
Qed.
Lemma atan2d_right y x : 0 <= x -> -90 <= atan2d y x <= 90.
Proof.
  intros H. rewrite atan2d_eq. pose proof (atan2_right y x H) as B. pose proof PI_RGT_0. unfold degrees.
  assert (E : atan2 y x * (180 / PI) * PI = atan2 y x * 180) by (field; lra).
  split; apply Rmult_le_reg_r with PI; lra.
Qed.
Lemma Direct_end_range g lon1 eps sa0 ca0 ss1 cs1 so1 co1 sg : 0 <= gd_f1 g ->
  let '(lat2, lon2, azi2) := Direct_end g lon1 eps sa0 ca0 ss1 cs1 so1 co1 sg in
  -90 <= lat2 <= 90 /\ -180 < lon2 <= 180 /\ -180 < azi2 <= 180.
Proof.
  intros H. unfold Direct_end. cbv zeta. split; [|split; [apply AngNormalize_range|apply atan2d_range]].
  apply atan2d_right. apply Rmult_le_pos; [exact H|]. pose proof tiny_pos. destruct (Req_EM_T _ _); [lra|apply hypot_nonneg].
Qed.
Lemma Direct_range g lat1 lon1 azi1 s12 : 0 <= gd_f1 g ->
  let '(lat2, lon2, azi2) := Direct g lat1 lon1 azi1 s12 in
  -90 <= lat2 <= 90 /\ -180 < lon2 <= 180 /\ -180 < azi2 <= 180.
Proof.
  intros H. unfold Direct. destruct (sincosd _) as [sa ca]. destruct (reduced _ _) as [sb cb]. cbv zeta.
  destruct (sig_pair _ _) as [ss1 cs1]. now apply Direct_end_range.
Qed.
(** Whole turns of the start longitude, and rotation about the axis. *)
Lemma Direct_lon g lat1 lon1 azi1 s12 d (k : Z) :
  let '(lat2, lon2, azi2) := Direct g lat1 lon1 azi1 s12 in
  Direct g lat1 (lon1 + d + IZR k * 360) azi1 s12 = (lat2, AngNormalize (lon2 + d), azi2).
Proof.
  unfold Direct. destruct (sincosd _) as [sa ca]. destruct (reduced _ _) as [sb cb]. cbv zeta.
  destruct (sig_pair _ _) as [ss1 cs1]. unfold Direct_end. cbv zeta.
  match goal with |- context [AngNormalize (lon1 + ?w)] => set (ww := w) end.
  apply f_equal2; [apply f_equal2|]; [reflexivity| |reflexivity].
  destruct (AngNormalize_congr (lon1 + ww)) as [n ->].
  replace (lon1 + d + IZR k * 360 + ww) with (lon1 + ww + d + IZR k * 360) by ring.
  replace (lon1 + ww + IZR n * 360 + d) with (lon1 + ww + d + IZR n * 360) by ring. now rewrite !AngNormalize_shift.
Qed.

(** The reduced latitude pair of an ellipsoid with axis ratio f1. *)
Lemma reduced_eq g lat : 0 < gd_f1 g -> cos (radians lat) <> 0 ->
  exists h, 0 < h /\ fst (reduced g lat) = sin (radians lat) * gd_f1 g / h /\ snd (reduced g lat) = Rmax k_tiny (cos (radians lat) / h)
    /\ h ^ 2 = (sin (radians lat) * gd_f1 g) ^ 2 + cos (radians lat) ^ 2.
Proof.
  intros F C. unfold reduced. rewrite sincosd_eq. unfold norm2. exists (hypot (sin (radians lat) * gd_f1 g) (cos (radians lat))).
  split; [apply hypot_pos; now right|]. split; [reflexivity|]. split; [reflexivity|apply hypot_pow2].
Qed.
Lemma radians_range lat : -90 < lat < 90 -> - (PI/2) < radians lat < PI/2.
Proof. intros H. unfold radians. pose proof PI_RGT_0. nra. Qed.
Lemma cos_lat_pos lat : -90 < lat < 90 -> 0 < cos (radians lat).
Proof. intros H. apply radians_range in H. apply cos_gt_0; lra. Qed.

(** End point for zero arc on the auxiliary sphere. *)
Lemma Direct_end_zero g lat1 lon1 eps sa ca sb cb ss1 cs1 ca0 : 0 < gd_f1 g -> 0 < cb ->
  sa ^ 2 + ca ^ 2 = 1 -> sb ^ 2 + cb ^ 2 = 1 -> 0 <= ca0 -> ca0 * ss1 = sb -> ca0 * cs1 = ca * cb -> ca0 ^ 2 = ca ^ 2 + (sa * sb) ^ 2 ->
  (ca0 = 0 -> ss1 = 0 /\ cs1 = 1) ->
  -90 < lat1 < 90 -> gd_f1 g * cb * tan (radians lat1) = sb ->
  Direct_end g lon1 eps (sa * cb) ca0 ss1 cs1 (sa * cb * sb) (ca * cb) 0 = (lat1, AngNormalize lon1, atan2d sa ca).
Proof.
  intros F Hcb Ha Hb C0 S1 S2 C0s S4 HL T. unfold Direct_end. cbv zeta. rewrite sin_0, cos_0.
  replace (ss1 * 1 + cs1 * 0) with ss1 by ring. replace (cs1 * 1 - ss1 * 0) with cs1 by ring.
  assert (h : hypot (sa * cb) (ca0 * cs1) = cb).
  { apply hypot_uniq; [lra|]. rewrite S2. replace ((sa * cb) ^ 2 + (ca * cb) ^ 2) with ((sa ^ 2 + ca ^ 2) * cb ^ 2) by ring. rewrite Ha. ring. }
  rewrite h. destruct (Req_EM_T cb 0); [lra|]. replace 1.0 with 1 by lra. apply f_equal2; [apply f_equal2|].
  - rewrite S1, atan2d_eq, atan2_pos by nra. rewrite <- T.
    replace (gd_f1 g * cb * tan (radians lat1) / (gd_f1 g * cb)) with (tan (radians lat1)) by (field; lra).
    rewrite atan_tan_id, deg_rad; [reflexivity|]. apply radians_range in HL. lra.
  - f_equal. rewrite !Rminus_eq_0 || idtac.
    assert (W : atan2 (copysign 1 (sa * cb) * (sa * cb * sb)) (ca * cb) = atan2 (copysign 1 (sa * cb) * (sa * cb * ss1)) cs1).
    { destruct (Req_dec ca0 0) as [Z|Z].
      - destruct (S4 Z) as [-> ->]. rewrite <- S2, Z.
        replace (copysign 1 (sa * cb) * (sa * cb * sb)) with 0 by (rewrite <- S1, Z; ring). replace (copysign 1 (sa * cb) * (sa * cb * 0)) with 0 by ring.
        rewrite Rmult_0_l, atan2_00. symmetry. apply (atan2_unique _ _ 0 1); rewrite ?sin_0, ?cos_0; pose proof PI_RGT_0; lra.
      - rewrite <- S1, <- S2. replace (copysign 1 (sa * cb) * (sa * cb * (ca0 * ss1))) with (ca0 * (copysign 1 (sa * cb) * (sa * cb * ss1))) by ring.
        apply atan2_scale. lra. }
    rewrite W.
    match goal with |- lon1 + degrees ?w = _ => replace w with 0 by ring end.
    replace (degrees 0) with 0 by (unfold degrees; field; apply PI_neq0). ring.
  - rewrite S2, !atan2d_eq. f_equal. rewrite (Rmult_comm sa), (Rmult_comm ca). apply atan2_scale. exact Hcb.
Qed.

(** The arc length on the auxiliary sphere for distance 0: residual of the series
    reversion (improved by one Newton step when |f| > 0.01). *)
Definition zero_arc (g : Geodesic) (k2 eps ss cs : R) : R := Direct_sig12 g k2 eps ss cs 0.
Lemma series_axis c n : forall t, sin (2 * t) = 0 -> SinCosSeries true (sin t) (cos t) c n = 0.
Proof.
  intros t H. unfold SinCosSeries. destruct (if Nat.odd n then _ else _) as [y0 y1]. destruct (clenshaw_loop _ _ _ _ _) as [z0 z1].
  replace (2.0 * sin t * cos t * z0) with (sin (2 * t) * z0) by (rewrite sin_2a; lra). rewrite H. ring.
Qed.
Lemma series_axis' ss cs c n : ss * cs = 0 -> SinCosSeries true ss cs c n = 0.
Proof.
  intros H. unfold SinCosSeries. destruct (if Nat.odd n then _ else _) as [y0 y1]. destruct (clenshaw_loop _ _ _ _ _) as [z0 z1].
  replace (2.0 * ss * cs * z0) with (2 * (ss * cs) * z0) by lra. rewrite H. ring.
Qed.
Lemma zero_arc_axis g k2 eps ss cs : ss * cs = 0 -> zero_arc g k2 eps ss cs = 0.
Proof.
  intros H. unfold zero_arc, Direct_sig12. cbv zeta. rewrite (series_axis' ss cs (arr (C1f eps)) nC1 H).
  rewrite sin_0, cos_0. replace (0 / (gd_b g * (1.0 + A1m1f eps))) with 0 by (unfold Rdiv; ring). rewrite sin_0, cos_0.
  replace (ss * 1 + cs * 0) with ss by ring. replace (cs * 1 - ss * 0) with cs by ring.
  replace (ss * 1 + cs * 0) with ss by ring. replace (cs * 1 - ss * 0) with cs by ring.
  rewrite (series_axis' ss cs (arr (C1pf eps)) nC1 H). replace (0 - (- 0 - 0)) with 0 by ring. rewrite sin_0, cos_0.
  replace (ss * 1 + cs * 0) with ss by ring. replace (cs * 1 - ss * 0) with cs by ring.
  rewrite (series_axis' ss cs (arr (C1f eps)) nC1 H). destruct (Rlt_dec _ _); unfold Rdiv; ring.
Qed.
Lemma zero_arc_sphere g k2 ss cs : spherical g -> zero_arc g k2 0 ss cs = 0.
Proof. intros S. unfold zero_arc. rewrite (Direct_sig12_sphere g k2 ss cs 0 S). unfold Rdiv. ring. Qed.

Lemma atan2d_sincosd az : atan2d (sin (radians az)) (cos (radians az)) = AngNormalize az.
Proof.
  destruct (AngNormalize_congr az) as [k K]. pose proof (AngNormalize_range az) as HR.
  assert (E : radians (AngNormalize az) = radians az + IZR k * (2 * PI)) by (rewrite K, radians_plus; unfold radians; field).
  rewrite atan2d_eq. rewrite <- (sin_period_Z _ k), <- (cos_period_Z _ k), <- E.
  rewrite (atan2_unique _ _ (radians (AngNormalize az)) 1); [apply deg_rad|lra| |lra|lra].
  pose proof PI_RGT_0 as P. assert (Q : radians (AngNormalize az) * 180 = AngNormalize az * PI) by (unfold radians; field).
  split; [apply Rmult_lt_reg_r with 180|apply Rmult_le_reg_r with 180]; rewrite ?Q; nra.
Qed.

(** Zero distance, whenever the residual above vanishes. *)
Lemma Direct_zero g lat1 lon1 azi1 : 0 < gd_f1 g <= 1 -> -90 < lat1 < 90 -> k_tiny <= cos (radians lat1) ->
  (forall k2 eps ss cs ca0, ca0 * ss = fst (reduced g lat1) -> ca0 * cs = cos (radians azi1) * snd (reduced g lat1) ->
     ss ^ 2 + cs ^ 2 = 1 -> (ca0 = 0 -> ss = 0 /\ cs = 1) -> 0 <= ca0 -> ca0 ^ 2 = fst (reduced g lat1) ^ 2 + (cos (radians azi1) * snd (reduced g lat1)) ^ 2 ->
     eps = eps_of k2 -> k2 = ca0 ^ 2 * gd_ep2 g -> zero_arc g k2 eps ss cs = 0) ->
  Direct g lat1 lon1 azi1 0 = (lat1, AngNormalize lon1, AngNormalize azi1).
Proof.
  intros F HL T Z. pose proof (cos_lat_pos lat1 HL) as CP. destruct (reduced_eq g lat1 ltac:(lra) ltac:(lra)) as (h & hp & E1 & E2 & hh).
  pose proof (sc1 (radians lat1)) as Q. assert (h1 : h <= 1).
  { assert (h ^ 2 <= 1); [|apply Rnot_lt_le; intros X; nra]. rewrite hh. assert (gd_f1 g ^ 2 <= 1) by (destruct F; nra).
    pose proof (pow2_ge_0 (sin (radians lat1))). replace ((sin (radians lat1) * gd_f1 g) ^ 2) with (sin (radians lat1) ^ 2 * gd_f1 g ^ 2) by ring.
    assert (sin (radians lat1) ^ 2 * gd_f1 g ^ 2 <= sin (radians lat1) ^ 2 * 1) by (apply Rmult_le_compat_l; assumption). nra. }
  assert (CH : cos (radians lat1) <= cos (radians lat1) / h).
  { apply Rmult_le_reg_r with h; [lra|]. unfold Rdiv. rewrite Rmult_assoc, Rinv_l by lra. nra. }
  rewrite Rmax_right in E2 by lra.
  unfold Direct. rewrite sincosd_norm, AngRound_id. destruct (reduced g lat1) as [sb cb]. cbn [fst snd] in *. cbv zeta.
  set (sa := sin (radians azi1)) in *. set (ca := cos (radians azi1)) in *.
  assert (Ha : sa ^ 2 + ca ^ 2 = 1) by (unfold sa, ca; rewrite <- (sc1 (radians azi1)); ring).
  assert (Hb : sb ^ 2 + cb ^ 2 = 1).
  { rewrite E1, E2. replace ((sin (radians lat1) * gd_f1 g / h) ^ 2 + (cos (radians lat1) / h) ^ 2) with
     (((sin (radians lat1) * gd_f1 g) ^ 2 + cos (radians lat1) ^ 2) / h ^ 2) by (field; lra). rewrite <- hh. field. lra. }
  assert (Hcb : 0 < cb) by (rewrite E2; apply Rdiv_lt_0_compat; lra).
  destruct (hypot_unfold ca (sa * sb)) as [C0 C0s]. set (ca0 := hypot ca (sa * sb)) in *.
  assert (C0t : ca0 ^ 2 = sb ^ 2 + (ca * cb) ^ 2) by (rewrite C0s; nra).
  pose proof (sig_pair_eq sb (ca * cb) ca0 C0 C0t) as SP. destruct (sig_pair _ _) as [ss1 cs1]. destruct SP as (S1 & S2 & S3 & S4).
  change (Direct_sig12 g (ca0 ^ 2 * gd_ep2 g) (eps_of (ca0 ^ 2 * gd_ep2 g)) ss1 cs1 0) with (zero_arc g (ca0 ^ 2 * gd_ep2 g) (eps_of (ca0 ^ 2 * gd_ep2 g)) ss1 cs1).
  rewrite (Z _ _ ss1 cs1 ca0 S1 S2 S3 S4 C0 C0t eq_refl eq_refl).
  rewrite (Direct_end_zero g lat1 lon1 _ sa ca sb cb ss1 cs1 ca0); try assumption; try lra.
  - unfold sa, ca. now rewrite atan2d_sincosd.
  - rewrite E1, E2. unfold tan. field. lra.
Qed.
