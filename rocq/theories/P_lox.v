(** C39-C41: lox.py *)
From Coq Require Import Lia.
From Coquelicot Require Import Coquelicot.
From Verif Require Import PyMath M_ellipsoid M_rcurve M_rsphere M_latitude M_lox Spec.
From Verif Require L_PyMath L_ell L_aer L_rcurve L_rsphere L_latitude L_latitude2 L_latitude3 L_lox.
Open Scope R_scope.

(** ** C39: meridian_arc and departure *)
Theorem C39_meridian_arc_metric : forall ell deg l1 l2, ell_ok ell ->
  meridian_arc l1 l2 ell deg = meridian_arc l2 l1 ell deg /\ 0 <= meridian_arc l1 l2 ell deg /\
  meridian_arc l1 l1 ell deg = 0 /\ meridian_dist l1 ell deg = meridian_arc 0 l1 ell deg.
Proof.
  intros ell deg l1 l2 H. split; [apply L_lox.arc_sym|]. split; [now apply L_lox.arc_nonneg|].
  split; [apply L_lox.arc_same|reflexivity].
Qed.
Theorem C39_meridian_arc_separates : forall ell deg l1 l2, ell_ok ell -> 3 * ell_a ell <= 4 * ell_b ell ->
  - quarter deg <= l1 <= quarter deg -> - quarter deg <= l2 <= quarter deg -> l1 <> l2 ->
  0 < meridian_arc l1 l2 ell deg.
Proof. intros; now apply L_lox.arc_pos. Qed.
Theorem C39_meridian_arc_additive : forall ell deg l1 l2 l3, ell_ok ell -> 3 * ell_a ell <= 4 * ell_b ell ->
  - quarter deg <= l1 -> l1 <= l2 -> l2 <= l3 -> l3 <= quarter deg ->
  meridian_arc l1 l3 ell deg = meridian_arc l1 l2 ell deg + meridian_arc l2 l3 ell deg.
Proof. intros; now apply L_lox.arc_additive. Qed.
(** The quadrant is a quarter of the rectifying circle; on a sphere the arc is
    radius times angle. *)
Theorem C39_quadrant : forall ell deg, ell_ok ell ->
  meridian_dist (quarter deg) ell deg = rectifying ell * (PI / 2).
Proof.
  intros ell deg H. unfold meridian_dist. rewrite L_lox.arc_rad, L_aer.rad_in_quarter.
  replace (rad_in deg 0) with 0 by (destruct deg; cbn; unfold radians; lra). unfold meridian_arc. cbv zeta.
  destruct (L_latitude2.rectifying_props ell H false) as ((O & Z0 & Z1 & _) & _). cbn [quarter rad_in] in *.
  rewrite Z0, Z1, Rminus_0_r, Rabs_pos_eq; [reflexivity|pose proof PI_RGT_0; lra].
Qed.
Theorem C39_meridian_arc_sphere : forall ell deg l1 l2, ell_ok ell -> ell_a ell = ell_b ell ->
  meridian_arc l1 l2 ell deg = ell_a ell * Rabs (as_rad deg l2 - as_rad deg l1).
Proof. intros ell deg l1 l2 H E. exact (L_lox.sphere_arc l1 l2 ell deg H E). Qed.
(** [departure] is the radius of the parallel times the angle between the two
    meridians, i.e. the least |lon2 - lon1 - 2 k pi|. *)
Definition meridian_angle (x d : R) : Prop :=
  (exists k : Z, d = Rabs (x - IZR k * (2 * PI))) /\ (forall k : Z, d <= Rabs (x - IZR k * (2 * PI))).
Theorem C39_departure_meaning : forall ell deg lon1 lon2 lat,
  exists d, departure lon1 lon2 lat ell deg = parallel lat ell deg * d /\ 0 <= d <= PI /\
  meridian_angle (as_rad deg lon2 - as_rad deg lon1) d.
Proof.
  intros ell deg lon1 lon2 lat. exists (L_lox.wrapdist (as_rad deg lon2 - as_rad deg lon1)).
  change as_rad with rad_in in *.
  destruct (L_lox.wrapdist_spec (rad_in deg lon2 - rad_in deg lon1)) as (A & B & C).
  split; [reflexivity|]. split; [exact A|]. split; assumption.
Qed.
Theorem C39_departure_metric : forall ell deg l1 l2 l3 lat, ell_ok ell -> - quarter deg <= lat <= quarter deg ->
  departure l1 l2 lat ell deg = departure l2 l1 lat ell deg /\ 0 <= departure l1 l2 lat ell deg /\
  departure l1 l1 lat ell deg = 0 /\ departure l1 l2 lat ell deg <= PI * parallel lat ell deg /\
  departure l1 l3 lat ell deg <= departure l1 l2 lat ell deg + departure l2 l3 lat ell deg /\
  (forall k : Z, departure l1 (l2 + IZR k * full deg) lat ell deg = departure l1 l2 lat ell deg) /\
  (- quarter deg < lat < quarter deg -> departure l1 l2 lat ell deg = 0 -> exists k : Z, l2 = l1 + IZR k * full deg).
Proof.
  intros ell deg l1 l2 l3 lat H Hl. rewrite !L_lox.departure_wrap.
  assert (Hp : 0 <= parallel (rad_in deg lat) ell false).
  { unfold parallel. cbn [rad_in]. apply Rmult_le_pos; [|left; apply (L_rcurve.transverse_pos ell H)].
    apply L_latitude.rad_range in Hl. apply cos_ge_0; lra. }
  change (parallel lat ell deg) with (parallel (rad_in deg lat) ell false).
  set (P := parallel (rad_in deg lat) ell false) in *.
  assert (Sh : forall k, rad_in deg (l2 + IZR k * full deg) = rad_in deg l2 + IZR k * (2 * PI)).
  { intros k. destruct deg; cbn; unfold radians; lra. }
  set (r1 := rad_in deg l1) in *. set (r2 := rad_in deg l2) in *. set (r3 := rad_in deg l3).
  destruct (L_lox.wrapdist_spec (r2 - r1)) as ((W1 & W2) & [k Wk] & _).
  split. { rewrite <- (L_lox.wrapdist_opp (r2 - r1)). f_equal. f_equal. ring. }
  split; [now apply Rmult_le_pos|].
  split. { rewrite Rminus_eq_0, L_lox.wrapdist_small; rewrite Rabs_R0; [ring|left; apply PI_RGT_0]. }
  split. { rewrite (Rmult_comm PI). now apply Rmult_le_compat_l. }
  split. { rewrite <- Rmult_plus_distr_l. apply Rmult_le_compat_l; [exact Hp|].
           replace (r3 - r1) with ((r2 - r1) + (r3 - r2)) by ring. apply L_lox.wrapdist_triangle. }
  split. { intros j. rewrite L_lox.departure_wrap, Sh. fold r1 r2 P.
           replace (r2 + IZR j * (2 * PI) - r1) with (r2 - r1 + IZR j * (2 * PI)) by ring.
           rewrite L_lox.wrapdist_period. reflexivity. }
  intros Hs E. assert (Hp' : 0 < P).
  { unfold P, parallel. cbn [rad_in]. apply Rmult_lt_0_compat; [|apply (L_rcurve.transverse_pos ell H)].
    apply cos_gt_0; destruct deg; cbn in *; unfold radians; pose proof PI_RGT_0; nra. }
  assert (W0 : L_lox.wrapdist (r2 - r1) = 0) by nra. rewrite W0 in Wk. symmetry in Wk.
  exists k. assert (E' : r2 - r1 = IZR k * (2 * PI)).
  { destruct (Req_dec (r2 - r1 - IZR k * (2 * PI)) 0) as [Q|Q]; [lra|]. apply Rabs_no_R0 in Q. contradiction. }
  unfold r1, r2 in E'. destruct deg; cbn [rad_in full] in *; unfold radians in *; [|lra].
  pose proof PI_RGT_0 as PP. apply (Rmult_eq_reg_r (PI / 180)); [|lra]. lra.
Qed.
Theorem C39_departure_short : forall ell deg lon1 lon2 lat, Rabs (lon2 - lon1) <= half deg ->
  departure lon1 lon2 lat ell deg = parallel lat ell deg * Rabs (as_rad deg (lon2 - lon1)).
Proof.
  intros ell deg lon1 lon2 lat Hd. rewrite L_lox.departure_wrap. change as_rad with rad_in.
  replace (rad_in deg lon2 - rad_in deg lon1) with (rad_in deg (lon2 - lon1)) by (destruct deg; cbn; unfold radians; lra).
  rewrite L_lox.wrapdist_small; [reflexivity|]. pose proof PI_RGT_0.
  destruct deg; cbn in *; [|exact Hd]. unfold radians. replace ((lon2 - lon1) * PI / 180) with ((lon2 - lon1) * (PI / 180)) by field.
  rewrite Rabs_mult, (Rabs_pos_eq (PI / 180)) by lra. nra.
Qed.
Example C39_hypotheses_met : ell_ok None /\ 3 * ell_a None <= 4 * ell_b None /\
  - quarter true <= 10 /\ 10 <= 20 /\ 20 <= 30 /\ 30 <= quarter true.
Proof. split; [exact I|]. cbn. lra. Qed.

(** ** C40: loxodrome_inverse *)
(** A latitude that is not within 1e-9 rad of a pole. *)
Definition off_pole (deg : bool) (lat : R) : Prop :=
  - quarter deg < lat < quarter deg /\ 1 / 1000000000 < cos (as_rad deg lat).
(** psi is the isometric latitude: psi(0) = 0 and psi' = meridian / parallel. *)
Definition isometric_of (ell : option Ellipsoid) (psi : R -> R) : Prop :=
  psi 0 = 0 /\ forall t, - PI / 2 < t < PI / 2 -> is_derive psi t (meridian t ell false / parallel t ell false).
(** The Mercator triangle: the azimuth of the rhumb line is that of the vector
    (change of isometric latitude, change of longitude), and the distance is
    the meridian arc divided by the cosine of the azimuth (or the departure
    when the line is within 1e-9 of east-west). *)
Theorem C40_rhumb_line_partial : forall ell, ell_ok ell -> exists psi, isometric_of ell psi /\
  forall deg lat1 lon1 lat2 lon2, off_pole deg lat1 -> off_pole deg lat2 ->
  exists dist az, loxodrome_inverse lat1 lon1 lat2 lon2 ell deg = Some (dist, az) /\
  let dpsi := psi (as_rad deg lat2) - psi (as_rad deg lat1) in
  let dlon := as_rad deg lon2 - as_rad deg lon1 in
  let m := sqrt (dpsi ^ 2 + dlon ^ 2) in
  dpsi = m * cos (as_rad deg az) /\ dlon = m * sin (as_rad deg az) /\
  (1 / 1000000000 <= Rabs (cos (as_rad deg az)) ->
     dist * Rabs (cos (as_rad deg az)) = meridian_arc lat1 lat2 ell deg) /\
  (Rabs (cos (as_rad deg az)) < 1 / 1000000000 -> dist = departure lon1 lon2 lat1 ell deg).
Proof.
  intros ell H. set (psi := L_latitude3.iso_expr (eccentricity (resolve_ellipsoid ell))). exists psi.
  split. { split; [apply (L_latitude3.iso_0 ell H)|]. intros t Ht. apply (L_latitude3.D_iso ell H). apply cos_gt_0; lra. }
  intros deg lat1 lon1 lat2 lon2 (_ & C1) (_ & C2). change as_rad with rad_in in *.
  destruct (L_lox.iso_fin _ ell H C1) as (v1 & E1 & F1). destruct (L_lox.iso_fin _ ell H C2) as (v2 & E2 & F2).
  unfold loxodrome_inverse. rewrite E1, E2. cbn [xsub xatan2].
  set (r1 := rad_in deg lon1). set (r2 := rad_in deg lon2). set (t := atan2 (r2 - r1) (v2 - v1)).
  eexists _, _. split; [reflexivity|]. change as_rad with rad_in in *. fold r1 r2. fold psi in F1, F2. rewrite <- F1, <- F2. cbv zeta.
  assert (T : cos (rad_in deg (if deg then py_mod (degrees t) 360 else t)) = cos t /\
              sin (rad_in deg (if deg then py_mod (degrees t) 360 else t)) = sin t).
  { destruct deg; [|split; reflexivity]. cbn [rad_in].
    destruct (L_PyMath.py_mod_congr (degrees t) 360 ltac:(lra)) as [k ->].
    replace (radians (degrees t + IZR k * 360)) with (t + IZR k * (2 * PI)).
    - split; [apply L_PyMath.cos_period_Z|apply L_PyMath.sin_period_Z].
    - unfold radians, degrees. field. apply PI_neq0. }
  destruct T as [-> ->]. fold (hypot (v2 - v1) (r2 - r1)). unfold t.
  rewrite L_PyMath.hypot_cos_atan2, L_PyMath.hypot_sin_atan2. fold t.
  split; [reflexivity|]. split; [reflexivity|]. unfold LOX_COS_EPS. split.
  - intros L. destruct (Rlt_dec (Rabs (cos t)) (1 / 1000000000)); [lra|]. 
    rewrite (L_lox.arc_sym _ _ ell false). fold (meridian_arc lat1 lat2 ell deg).
    change (meridian_arc (rad_in deg lat1) (rad_in deg lat2) ell false) with (meridian_arc lat1 lat2 ell deg).
    field. lra.
  - intros L. destruct (Rlt_dec (Rabs (cos t)) (1 / 1000000000)); [|lra].
    change (departure r2 r1 (rad_in deg lat1) ell false) with (departure lon2 lon1 lat1 ell deg).
    rewrite !L_lox.departure_wrap, <- L_lox.wrapdist_opp. f_equal. f_equal. ring.
Qed.
(** Azimuths: [0, 360) in degrees, [-pi, pi] in radians; distances are not negative. *)
Theorem C40_ranges : forall ell deg lat1 lon1 lat2 lon2 dist az, ell_ok ell ->
  - quarter deg <= lat1 <= quarter deg ->
  loxodrome_inverse lat1 lon1 lat2 lon2 ell deg = Some (dist, az) ->
  0 <= dist /\ (if deg then 0 <= az < 360 else - PI <= az <= PI).
Proof.
  intros ell deg lat1 lon1 lat2 lon2 dist az H Hl. unfold loxodrome_inverse.
  destruct (xsub _ _) as [d|]; [|discriminate]. intros E. injection E as <- <-. split.
  - destruct (Rlt_dec _ LOX_COS_EPS) as [L|L].
    + apply (C39_departure_metric ell false (rad_in deg lon2) (rad_in deg lon1) 0 (rad_in deg lat1) H).
      apply L_latitude.rad_range in Hl. cbn. lra.
    + apply Rmult_le_pos; [now apply L_lox.arc_nonneg|]. left. apply Rinv_0_lt_compat. unfold LOX_COS_EPS in L. lra.
  - destruct deg; [apply L_PyMath.py_mod_range; lra|]. pose proof PI_RGT_0. destruct d as [x| |]; cbn [xatan2].
    + pose proof (L_PyMath.atan2_range (rad_in false lon2 - rad_in false lon1) x). lra.
    + lra.
    + destruct (Rle_dec 0 _); lra.
Qed.
(** Coincident points. *)
Theorem C40_coincident : forall ell deg lat lon, ell_ok ell -> off_pole deg lat ->
  loxodrome_inverse lat lon lat lon ell deg = Some (0, 0).
Proof.
  intros ell deg lat lon H (_ & C). change as_rad with rad_in in *.
  destruct (L_lox.iso_fin _ ell H C) as (v & E & _). unfold loxodrome_inverse. rewrite E. cbn [xsub xatan2].
  rewrite !Rminus_eq_0, L_PyMath.atan2_00, cos_0, Rabs_R1. unfold LOX_COS_EPS. destruct (Rlt_dec 1 _); [lra|].
  rewrite L_lox.arc_same. apply (f_equal Some). f_equal; [lra|]. destruct deg; [|reflexivity].
  unfold degrees. rewrite Rmult_0_l. unfold Rdiv. rewrite Rmult_0_l. apply L_PyMath.py_mod_small. lra.
Qed.
(** Along a meridian: the meridian arc, azimuth 0 or 180 degrees. *)
Theorem C40_along_meridian : forall ell deg lat1 lat2 lon, ell_ok ell -> off_pole deg lat1 -> off_pole deg lat2 ->
  lat1 <> lat2 ->
  loxodrome_inverse lat1 lon lat2 lon ell deg
  = Some (meridian_arc lat1 lat2 ell deg, if Rlt_dec lat1 lat2 then 0 else half deg).
Proof.
  intros ell deg lat1 lat2 lon H (A1 & C1) (A2 & C2) Hne. change as_rad with rad_in in *.
  destruct (L_lox.iso_fin _ ell H C1) as (v1 & E1 & F1). destruct (L_lox.iso_fin _ ell H C2) as (v2 & E2 & F2).
  assert (Hr : forall x, - quarter deg < x < quarter deg -> - (PI / 2) < rad_in deg x < PI / 2).
  { intros x Hx. destruct deg; cbn in *; unfold radians; pose proof PI_RGT_0; nra. }
  assert (Mo : forall x y, x < y -> rad_in deg x < rad_in deg y).
  { intros x y L. destruct deg; cbn; unfold radians; pose proof PI_RGT_0; nra. }
  pose proof (Hr _ A1) as R1. pose proof (Hr _ A2) as R2. pose proof PI_RGT_0 as HP.
  unfold loxodrome_inverse. rewrite E1, E2. cbn [xsub xatan2]. rewrite (Rminus_eq_0 (rad_in deg lon)).
  rewrite (L_lox.arc_sym (rad_in deg lat2)).
  change (meridian_arc (rad_in deg lat1) (rad_in deg lat2) ell false) with (meridian_arc lat1 lat2 ell deg).
  unfold LOX_COS_EPS. destruct (Rlt_dec lat1 lat2) as [L|L].
  - rewrite L_lox.atan2_0pos.
    2:{ rewrite F1, F2. pose proof (L_latitude3.iso_incr ell H _ _ (proj1 R1) (Mo _ _ L) (proj2 R2)). lra. }
    rewrite cos_0, Rabs_R1. destruct (Rlt_dec 1 _); [lra|]. apply (f_equal Some). f_equal; [field|].
    destruct deg; [|reflexivity]. unfold degrees, Rdiv. rewrite !Rmult_0_l. apply L_PyMath.py_mod_small. lra.
  - assert (L' : lat2 < lat1) by lra. rewrite L_lox.atan2_0neg.
    2:{ rewrite F1, F2. pose proof (L_latitude3.iso_incr ell H _ _ (proj1 R2) (Mo _ _ L') (proj2 R1)). lra. }
    rewrite cos_PI. replace (Rabs (-1)) with 1 by (rewrite Rabs_left; lra). destruct (Rlt_dec 1 _); [lra|]. apply (f_equal Some). f_equal; [field|].
    destruct deg; [|reflexivity]. replace (degrees PI) with 180 by (unfold degrees; field; lra).
    cbn [half]; apply L_PyMath.py_mod_small; lra.
Qed.
(** Along a parallel: the departure, azimuth 90 or 270 degrees according to the
    sign of lon2 - lon1 (not reduced modulo 360). *)
Theorem C40_along_parallel : forall ell deg lat lon1 lon2, ell_ok ell -> off_pole deg lat -> lon1 <> lon2 ->
  loxodrome_inverse lat lon1 lat lon2 ell deg
  = Some (departure lon1 lon2 lat ell deg,
          if Rlt_dec lon1 lon2 then quarter deg else if deg then 270 else - (PI / 2)).
Proof.
  intros ell deg lat lon1 lon2 H (A & C) Hne. change as_rad with rad_in in *.
  destruct (L_lox.iso_fin _ ell H C) as (v & E & F). pose proof PI_RGT_0 as HP.
  assert (Mo : (lon1 < lon2 -> 0 < rad_in deg lon2 - rad_in deg lon1) /\ (lon2 < lon1 -> rad_in deg lon2 - rad_in deg lon1 < 0)).
  { destruct deg; cbn; unfold radians; split; intros; nra. }
  unfold loxodrome_inverse. rewrite E. cbn [xsub xatan2]. rewrite (Rminus_eq_0 v).
  assert (D : departure (rad_in deg lon2) (rad_in deg lon1) (rad_in deg lat) ell false = departure lon1 lon2 lat ell deg).
  { change (departure (rad_in deg lon2) (rad_in deg lon1) (rad_in deg lat) ell false) with (departure lon2 lon1 lat ell deg).
    rewrite !L_lox.departure_wrap, <- L_lox.wrapdist_opp. f_equal. f_equal. ring. }
  rewrite D. unfold LOX_COS_EPS. destruct (Rlt_dec lon1 lon2) as [L|L].
  - rewrite L_lox.atan2_y0 by (apply Rgt_not_eq; now apply Mo). destruct (Rlt_dec 0 _) as [M|M]; [|exfalso; apply M; now apply Mo].
    rewrite cos_PI2, Rabs_R0. destruct (Rlt_dec 0 _); [|lra]. apply (f_equal Some). f_equal.
    destruct deg; [|reflexivity]. replace (degrees (PI / 2)) with 90 by (unfold degrees; field; lra). cbn [quarter]; apply L_PyMath.py_mod_small; lra.
  - assert (L' : lon2 < lon1) by lra. apply Mo in L'. rewrite L_lox.atan2_y0 by lra. destruct (Rlt_dec 0 _) as [M|M]; [lra|].
    replace (- PI / 2) with (- (PI / 2)) by lra. rewrite cos_neg, cos_PI2, Rabs_R0. destruct (Rlt_dec 0 _); [|lra].
    apply (f_equal Some). f_equal. destruct deg; [|reflexivity].
    replace (degrees (- (PI / 2))) with (270 + IZR (-1) * 360) by (unfold degrees; field; lra).
    rewrite L_PyMath.py_mod_plus by lra. apply L_PyMath.py_mod_small. lra.
Qed.
(** To or from a pole: the meridian arc, azimuth north or south. *)
Theorem C40_poles : forall ell deg lat lon1 lon2, ell_ok ell -> off_pole deg lat ->
  loxodrome_inverse lat lon1 (quarter deg) lon2 ell deg = Some (meridian_arc lat (quarter deg) ell deg, 0) /\
  exists az, loxodrome_inverse lat lon1 (- quarter deg) lon2 ell deg = Some (meridian_arc lat (- quarter deg) ell deg, az) /\
  cos (as_rad deg az) = -1.
Proof.
  intros ell deg lat lon1 lon2 H (A & C). change as_rad with rad_in in *.
  destruct (L_lox.iso_fin _ ell H C) as (v & E & F). pose proof PI_RGT_0 as HP.
  destruct (L_latitude3.isometric_pole ell false) as [P1 P2]. cbn [quarter] in P1, P2.
  assert (D2 : degrees PI = 180) by (unfold degrees; field; lra).
  unfold loxodrome_inverse. rewrite L_aer.rad_in_quarter, L_aer.rad_in_mquarter.
  replace (- PI / 2) with (- (PI / 2)) by lra. rewrite P1, P2, E. cbn [xsub xatan2].
  assert (M : forall x, meridian_arc x (rad_in deg lat) ell false = meridian_arc (rad_in deg lat) x ell false) by (intros; apply L_lox.arc_sym).
  rewrite !M. rewrite !(L_lox.arc_rad lat _ ell deg), L_aer.rad_in_quarter, L_aer.rad_in_mquarter.
  replace (- PI / 2) with (- (PI / 2)) by lra.
  unfold LOX_COS_EPS. split.
  - rewrite cos_0, Rabs_R1. destruct (Rlt_dec 1 _); [lra|]. apply (f_equal Some). f_equal; [field|].
    destruct deg; [|reflexivity]. unfold degrees, Rdiv. rewrite !Rmult_0_l. apply L_PyMath.py_mod_small. lra.
  - set (t := if Rle_dec 0 _ then PI else - PI).
    assert (T : cos t = -1) by (unfold t; destruct (Rle_dec 0 _); rewrite ?cos_neg; apply cos_PI).
    eexists. rewrite T. replace (Rabs (-1)) with 1 by (rewrite Rabs_left; lra). destruct (Rlt_dec 1 _); [lra|]. split; [apply (f_equal Some); f_equal; field|].
    destruct deg; [|exact T]. destruct (L_PyMath.py_mod_congr (degrees t) 360 ltac:(lra)) as [k ->]. cbn [rad_in].
    replace (radians (degrees t + IZR k * 360)) with (t + IZR k * (2 * PI)).
    + rewrite L_PyMath.cos_period_Z. exact T.
    + unfold radians, degrees. field. lra.
Qed.
(** Symmetric distance, opposite azimuth (up to the 1e-9 east-west switch, where
    both latitudes must be equal). *)
Theorem C40_symmetric : forall ell deg lat1 lon1 lat2 lon2 d12 a12 d21 a21, ell_ok ell ->
  off_pole deg lat1 -> off_pole deg lat2 ->
  loxodrome_inverse lat1 lon1 lat2 lon2 ell deg = Some (d12, a12) ->
  loxodrome_inverse lat2 lon2 lat1 lon1 ell deg = Some (d21, a21) ->
  (lat1 = lat2 \/ 1 / 1000000000 <= Rabs (cos (as_rad deg a12))) -> (lat1 <> lat2 \/ lon1 <> lon2) ->
  d12 = d21 /\ cos (as_rad deg a21) = - cos (as_rad deg a12) /\ sin (as_rad deg a21) = - sin (as_rad deg a12).
Proof.
  intros ell deg lat1 lon1 lat2 lon2 d12 a12 d21 a21 H O1 O2 E1 E2 Hc Hd.
  destruct (C40_rhumb_line_partial ell H) as (psi & Ps & R).
  destruct (R deg lat1 lon1 lat2 lon2 O1 O2) as (d & a & E1' & X). rewrite E1 in E1'. injection E1' as <- <-.
  destruct (R deg lat2 lon2 lat1 lon1 O2 O1) as (d & a & E2' & Y). rewrite E2 in E2'. injection E2' as <- <-.
  cbv zeta in X, Y. set (dp := psi (as_rad deg lat2) - psi (as_rad deg lat1)) in *.
  set (dl := as_rad deg lon2 - as_rad deg lon1) in *.
  replace (psi (as_rad deg lat1) - psi (as_rad deg lat2)) with (- dp) in Y by (unfold dp; ring).
  replace (as_rad deg lon1 - as_rad deg lon2) with (- dl) in Y by (unfold dl; ring).
  replace ((- dp) ^ 2 + (- dl) ^ 2) with (dp ^ 2 + dl ^ 2) in Y by ring.
  assert (Hm : 0 < sqrt (dp ^ 2 + dl ^ 2)).
  { apply sqrt_lt_R0. pose proof PI_RGT_0 as HP. destruct (Req_dec lon1 lon2) as [El|El].
    - assert (Hn : lat1 <> lat2) by (destruct Hd; [assumption|contradiction]).
      pose proof (C40_along_meridian ell deg lat1 lat2 lon1 H O1 O2 Hn) as Q. rewrite <- El in E1. 
      assert (Hdp : dp <> 0).
      { destruct X as (X1 & X2 & _). intros Z.
        assert (Hz : dl = 0) by (unfold dl; rewrite El; ring).
        assert (I : forall x y, off_pole deg x -> off_pole deg y -> x < y -> psi (as_rad deg x) < psi (as_rad deg y)).
        { intros x y (Ox & _) (Oy & _) L. destruct Ps as (_ & Dp).
          assert (Hr : forall x, - quarter deg < x < quarter deg -> - (PI / 2) < as_rad deg x < PI / 2).
          { intros u Hu. destruct deg; cbn in *; nra. }
          apply (L_latitude2.mvt_incr psi (fun t => meridian t ell false / parallel t ell false)).
          - destruct deg; cbn; nra.
          - intros c Hcc. apply Dp. pose proof (Hr x Ox). pose proof (Hr y Oy). lra.
          - intros c Hcc. pose proof (Hr x Ox). pose proof (Hr y Oy).
            apply Rdiv_lt_0_compat; [apply (L_rcurve.meridian_pos ell H)|].
            unfold parallel. apply Rmult_lt_0_compat; [|apply (L_rcurve.transverse_pos ell H)]. cbn [rad_in]. apply cos_gt_0; lra. }
        unfold dp in Z. destruct (Rtotal_order lat1 lat2) as [L|[L|L]]; [|contradiction|].
        - pose proof (I _ _ O1 O2 L). lra.
        - pose proof (I _ _ O2 O1 L). lra. }
      nra.
    - assert (dl <> 0) by (unfold dl; destruct deg; cbn; [|lra]; intros Z; apply El; nra). nra. }
  destruct X as (X1 & X2 & X3 & X4). destruct Y as (Y1 & Y2 & Y3 & Y4).
  set (m := sqrt (dp ^ 2 + dl ^ 2)) in *.
  assert (Cc : cos (as_rad deg a21) = - cos (as_rad deg a12)) by (apply (Rmult_eq_reg_l m); lra).
  assert (Cs : sin (as_rad deg a21) = - sin (as_rad deg a12)) by (apply (Rmult_eq_reg_l m); lra).
  split; [|split; assumption].
  destruct (Rlt_dec (Rabs (cos (as_rad deg a12))) (1 / 1000000000)) as [L|L].
  - destruct Hc as [Hc|Hc]; [|lra]. rewrite X4 by exact L. rewrite Y4 by (rewrite Cc, Rabs_Ropp; exact L).
    rewrite Hc. rewrite !L_lox.departure_wrap, <- L_lox.wrapdist_opp. f_equal. f_equal. ring.
  - rewrite Cc, Rabs_Ropp in Y3. specialize (X3 ltac:(lra)). specialize (Y3 ltac:(lra)).
    rewrite (L_lox.arc_sym lat2 lat1) in Y3. rewrite <- X3 in Y3.
    apply (Rmult_eq_reg_r (Rabs (cos (as_rad deg a12)))); lra.
Qed.
(** Finding: the longitude difference is not reduced, so adding a full turn to
    one longitude changes the answer. *)
Theorem C40_full_turn_refuted : forall ell deg lat1 lat2 lon, ell_ok ell -> 3 * ell_a ell <= 4 * ell_b ell ->
  off_pole deg lat1 -> off_pole deg lat2 -> lat1 < lat2 ->
  exists d a d' a', loxodrome_inverse lat1 lon lat2 lon ell deg = Some (d, a) /\
  loxodrome_inverse lat1 lon lat2 (lon + full deg) ell deg = Some (d', a') /\ a <> a' /\
  (1 / 1000000000 <= Rabs (cos (as_rad deg a')) -> d < d').
Proof.
  intros ell deg lat1 lat2 lon H Hf O1 O2 L.
  destruct (C40_rhumb_line_partial ell H) as (psi & Ps & R).
  destruct (R deg lat1 lon lat2 (lon + full deg) O1 O2) as (d' & a' & E' & X). cbv zeta in X.
  pose proof (C40_along_meridian ell deg lat1 lat2 lon H O1 O2 ltac:(lra)) as E.
  destruct (Rlt_dec lat1 lat2); [|contradiction].
  exists (meridian_arc lat1 lat2 ell deg), 0, d', a'. split; [exact E|]. split; [exact E'|].
  replace (as_rad deg (lon + full deg) - as_rad deg lon) with (2 * PI) in X by (destruct deg; cbn; lra).
  set (dp := psi _ - psi _) in X. destruct X as (X1 & X2 & X3 & _). pose proof PI_RGT_0 as HP.
  set (m := sqrt (dp ^ 2 + (2 * PI) ^ 2)) in *.
  assert (Hs : sin (as_rad deg a') <> 0) by (intros Z; rewrite Z in X2; lra).
  split. { intros Z. apply Hs. rewrite <- Z. replace (as_rad deg 0) with 0 by (destruct deg; cbn; lra). apply sin_0. }
  intros Hc. specialize (X3 Hc). pose proof (C39_meridian_arc_separates ell deg lat1 lat2 H Hf) as Pos.
  destruct O1 as (Q1 & _). destruct O2 as (Q2 & _). specialize (Pos ltac:(lra) ltac:(lra) ltac:(lra)).
  rewrite <- X3 in Pos |- *. set (c := Rabs (cos (as_rad deg a'))) in *.
  assert (c < 1).
  { unfold c. pose proof (sin2_cos2 (as_rad deg a')) as S. unfold Rsqr in S.
    assert (0 < sin (as_rad deg a') * sin (as_rad deg a')) by nra.
    apply Rabs_def1; nra. }
  assert (0 < d') by nra. nra.
Qed.
(** Finding: along a parallel the distance is that of the short way round but
    the azimuth that of the sign of lon2 - lon1: going from longitude 0 to 270
    the returned azimuth is east although the distance is the western one. *)
Theorem C40_parallel_long_way_refuted : forall ell lat, ell_ok ell -> off_pole true lat ->
  loxodrome_inverse lat 0 lat 270 ell true = Some (parallel lat ell true * (PI / 2), 90) /\
  loxodrome_inverse lat 0 lat (-90) ell true = Some (parallel lat ell true * (PI / 2), 270).
Proof.
  intros ell lat H O. rewrite !(C40_along_parallel ell true) by (assumption || lra).
  destruct (Rlt_dec 0 270); [|lra]. destruct (Rlt_dec 0 (-90)); [lra|]. cbn [quarter]. pose proof PI_RGT_0 as HP.
  assert (D : departure 0 (-90) lat ell true = parallel lat ell true * (PI / 2)).
  { rewrite C39_departure_short by (cbn; rewrite Rabs_left; lra). f_equal. cbn. rewrite Rabs_left; lra. }
  split; [|rewrite D; reflexivity].
  replace 270 with (-90 + 1 * 360) by ring. change (1 * 360) with (IZR 1 * full true).
  destruct O as (O & _). 
  destruct (C39_departure_metric ell true 0 (-90) 0 lat H ltac:(lra)) as (_ & _ & _ & _ & _ & P & _). rewrite P, D. reflexivity.
Qed.
(** Finding: both points at the same pole give NaN. *)
Theorem C40_same_pole_nan : forall ell deg lon1 lon2,
  loxodrome_inverse (quarter deg) lon1 (quarter deg) lon2 ell deg = None.
Proof.
  intros. unfold loxodrome_inverse. rewrite L_aer.rad_in_quarter.
  destruct (L_latitude3.isometric_pole ell false) as [P1 _]. cbn [quarter] in P1. rewrite P1. reflexivity.
Qed.
Example C40_hypotheses_met : off_pole true 0 /\ off_pole true (60).
Proof.
  unfold off_pole. cbn. replace (0 * PI / 180) with 0 by field. replace (60 * PI / 180) with (PI / 3) by field.
  rewrite cos_0, cos_PI3. lra.
Qed.

(** ** C41: loxodrome_direct *)
Theorem C41_guards : forall ell deg lat1 lon1 rng a12,
  (quarter deg < Rabs lat1 \/ rng < 0) <-> loxodrome_direct lat1 lon1 rng a12 ell deg = Raise ValueError.
Proof.
  intros ell deg lat1 lon1 rng a12. unfold loxodrome_direct. pose proof PI_RGT_0 as HP.
  assert (Q : PI / 2 < Rabs (rad_in deg lat1) <-> quarter deg < Rabs lat1).
  { destruct deg; cbn; [|reflexivity]. unfold radians. replace (lat1 * PI / 180) with (lat1 * (PI / 180)) by field.
    rewrite Rabs_mult, (Rabs_pos_eq (PI / 180)) by lra. split; intros; nra. }
  destruct (Rlt_dec (PI / 2) (Rabs (rad_in deg lat1))) as [L|L].
  - split; [reflexivity|]. intros _. left. now apply Q.
  - destruct (Rlt_dec rng 0) as [M|M].
    + split; [reflexivity|]. intros _. right. exact M.
    + split; [|discriminate]. intros [N|N]; [exfalso; apply L; now apply Q|contradiction].
Qed.
(** Due east or west: the latitude is the rectifying round trip of the start
    latitude and the longitude moves by rng over the radius of the parallel. *)
Theorem C41_east_west : forall ell deg lat1 lon1 rng, ell_ok ell -> - quarter deg < lat1 < quarter deg -> 0 <= rng ->
  let lat2 := rectifying2geodetic (geodetic2rectifying lat1 ell deg) ell deg in
  loxodrome_direct lat1 lon1 rng (quarter deg) ell deg
    = Ok (lat2, Some (lon1 + deg_out deg (rng / parallel lat1 ell deg))) /\
  loxodrome_direct lat1 lon1 rng (3 * quarter deg) ell deg
    = Ok (lat2, Some (lon1 - deg_out deg (rng / parallel lat1 ell deg))).
Proof.
  intros ell deg lat1 lon1 rng H Hl Hr lat2. pose proof PI_RGT_0 as HP.
  assert (Hlr : - (PI / 2) < rad_in deg lat1 < PI / 2) by (destruct deg; cbn in *; unfold radians; nra).
  assert (L2 : deg_out deg (rectifying2geodetic (geodetic2rectifying (rad_in deg lat1) ell false) ell false) = lat2).
  { unfold lat2. change (geodetic2rectifying lat1 ell deg) with (deg_out deg (geodetic2rectifying (rad_in deg lat1) ell false)).
    set (g := geodetic2rectifying (rad_in deg lat1) ell false).
    change (rectifying2geodetic (deg_out deg g) ell deg) with (deg_out deg (rectifying2geodetic (rad_in deg (deg_out deg g)) ell false)).
    rewrite L_PyMath.rad_in_deg_out. reflexivity. }
  assert (Hp : 0 < parallel (rad_in deg lat1) ell false).
  { unfold parallel. cbn [rad_in]. apply Rmult_lt_0_compat; [|apply (L_rcurve.transverse_pos ell H)]. apply cos_gt_0; lra. }
  change (parallel lat1 ell deg) with (parallel (rad_in deg lat1) ell false).
  set (P := parallel (rad_in deg lat1) ell false) in *.
  assert (DO : forall x y, deg_out deg (rad_in deg x + y) = x + deg_out deg y).
  { intros x y. destruct deg; cbn; [|reflexivity]. unfold degrees, radians. field. lra. }
  assert (DN : forall x, deg_out deg (- x) = - deg_out deg x).
  { intros x. destruct deg; cbn; [|reflexivity]. unfold degrees. field. lra. }
  assert (T3 : rad_in deg (3 * quarter deg) = 3 * (PI / 2)) by (destruct deg; cbn; unfold radians; field).
  assert (C3 : cos (3 * (PI / 2)) = 0) by (rewrite <- cos_3PI2; f_equal; lra).
  assert (Ng : ~ PI / 2 < Rabs (rad_in deg lat1)) by (intros Z; apply (Rlt_irrefl (PI / 2)); eapply Rlt_trans; [exact Z|]; apply Rabs_def1; lra).
  unfold loxodrome_direct. rewrite L_aer.rad_in_quarter, T3.
  rewrite !L_PyMath.py_mod_small by (unfold tau; lra). rewrite cos_PI2, C3, Rabs_R0, !Rmult_0_r, !Rplus_0_r, L2. fold P.
  destruct (Rlt_dec (PI / 2) _); [contradiction|]. destruct (Rlt_dec rng 0); [lra|].
  destruct (Rlt_dec 0 LOX_COS_EPS) as [E|E]; [|unfold LOX_COS_EPS in E; lra].
  destruct (Req_EM_T P 0); [lra|]. unfold sign.
  destruct (Rlt_dec (PI - PI / 2) 0); [lra|]. destruct (Rlt_dec 0 (PI - PI / 2)); [|lra].
  destruct (Rlt_dec (PI - 3 * (PI / 2)) 0); [|lra]. rewrite !DO. split.
  - apply (f_equal Ok). f_equal. apply (f_equal Some). f_equal. f_equal. field. lra.
  - apply (f_equal Ok). f_equal. apply (f_equal Some). unfold Rminus. f_equal. rewrite <- DN. f_equal. field. lra.
Qed.
(** Due north or south keeps the longitude, as long as neither end is at a pole. *)
Theorem C41_north_south_partial : forall ell deg lat1 lon1 rng a12 lat2 lon2, ell_ok ell -> off_pole deg lat1 ->
  a12 = 0 \/ a12 = half deg ->
  loxodrome_direct lat1 lon1 rng a12 ell deg = Ok (lat2, lon2) -> off_pole deg lat2 -> lon2 = Some lon1.
Proof.
  intros ell deg lat1 lon1 rng a12 lat2 lon2 H (_ & C1) Ha. change as_rad with rad_in in *. pose proof PI_RGT_0 as HP.
  assert (A : py_mod (rad_in deg a12) tau = 0 \/ py_mod (rad_in deg a12) tau = PI).
  { destruct Ha as [-> | ->]; [left|right].
    - replace (rad_in deg 0) with 0 by (destruct deg; cbn; unfold radians; lra). apply L_PyMath.py_mod_small. unfold tau. lra.
    - replace (rad_in deg (half deg)) with PI by (destruct deg; cbn; unfold radians; lra). apply L_PyMath.py_mod_small. unfold tau. lra. }
  unfold loxodrome_direct. destruct (Rlt_dec (PI / 2) _); [discriminate|]. destruct (Rlt_dec rng 0); [discriminate|].
  intros E (_ & C2). apply L_lox.ok_pair_inj in E. destruct E as [<- <-]. change as_rad with rad_in in *. rewrite L_PyMath.rad_in_deg_out in C2.
  destruct (L_lox.iso_fin _ ell H C1) as (v1 & E1 & _). destruct (L_lox.iso_fin _ ell H C2) as (v2 & E2 & _).
  rewrite E1, E2. cbn [lox_dlon].
  assert (T : tan (py_mod (rad_in deg a12) tau) = 0 /\ Rabs (cos (py_mod (rad_in deg a12) tau)) = 1).
  { destruct A as [-> | ->].
    - split; [apply tan_0|rewrite cos_0; apply Rabs_R1].
    - unfold tan. rewrite sin_PI, cos_PI. split; [lra|]. rewrite Rabs_left; lra. }
  destruct T as [-> ->]. destruct (Rlt_dec 1 LOX_COS_EPS) as [L|L]; [unfold LOX_COS_EPS in L; lra|].
  rewrite Rmult_0_l, Rplus_0_r. apply (f_equal Some). destruct deg; cbn; [|reflexivity]. unfold degrees, radians. field. lra.
Qed.
(** Finding: a due-north walk that ends at the pole has no longitude (0 * inf). *)
Theorem C41_to_pole_nan : forall ell deg lat1 lon1 rng a12 lat2 lon2, a12 = 0 \/ a12 = half deg ->
  loxodrome_direct lat1 lon1 rng a12 ell deg = Ok (lat2, lon2) -> Rabs (cos (as_rad deg lat2)) <= 1 / 1000000000 ->
  lon2 = None.
Proof.
  intros ell deg lat1 lon1 rng a12 lat2 lon2 Ha. change as_rad with rad_in in *. pose proof PI_RGT_0 as HP.
  assert (A : py_mod (rad_in deg a12) tau = 0 \/ py_mod (rad_in deg a12) tau = PI).
  { destruct Ha as [-> | ->]; [left|right].
    - replace (rad_in deg 0) with 0 by (destruct deg; cbn; unfold radians; lra). apply L_PyMath.py_mod_small. unfold tau. lra.
    - replace (rad_in deg (half deg)) with PI by (destruct deg; cbn; unfold radians; lra). apply L_PyMath.py_mod_small. unfold tau. lra. }
  unfold loxodrome_direct. destruct (Rlt_dec (PI / 2) _); [discriminate|]. destruct (Rlt_dec rng 0); [discriminate|].
  intros E C2. apply L_lox.ok_pair_inj in E. destruct E as [<- <-]. rewrite L_PyMath.rad_in_deg_out in C2.
  assert (T : Rabs (cos (py_mod (rad_in deg a12) tau)) = 1).
  { destruct A as [-> | ->]; [rewrite cos_0; apply Rabs_R1|]. rewrite cos_PI, Rabs_left; lra. }
  rewrite T. destruct (Rlt_dec 1 LOX_COS_EPS) as [L|L]; [unfold LOX_COS_EPS in L; lra|].
  set (lt := rectifying2geodetic _ ell false) in *. unfold geodetic2isometric at 1. cbn [rad_in].
  destruct (Rle_dec (Rabs (cos lt)) COS_EPS) as [L'|L']; [|unfold COS_EPS in L'; lra].
  destruct (Rlt_dec lt 0); reflexivity.
Qed.
(** On a sphere the motion is exact: the latitude grows by rng cos(az) / R ... *)
Theorem C41_sphere_latitude : forall ell deg lat1 lon1 rng a12 lat2 lon2, ell_ok ell -> ell_a ell = ell_b ell ->
  loxodrome_direct lat1 lon1 rng a12 ell deg = Ok (lat2, lon2) ->
  as_rad deg lat2 = as_rad deg lat1 + rng / ell_a ell * cos (as_rad deg a12).
Proof.
  intros ell deg lat1 lon1 rng a12 lat2 lon2 H E. change as_rad with rad_in in *.
  unfold loxodrome_direct. destruct (Rlt_dec (PI / 2) _); [discriminate|]. destruct (Rlt_dec rng 0); [discriminate|].
  rewrite L_lox.sphere_rect, L_lox.sphere_rect_inv, L_lox.sphere_radius by assumption.
  intros Q. apply L_lox.ok_pair_inj in Q. destruct Q as [<- _]. rewrite L_PyMath.rad_in_deg_out. f_equal. f_equal.
  destruct (L_PyMath.py_mod_congr (rad_in deg a12) tau L_PyMath.tau_pos) as [k ->]. apply L_PyMath.cos_period_Z.
Qed.
(** Finding: nothing stops at the pole: a quarter circumference north from
    45 degrees returns latitude 135. *)
Theorem C41_overshoot_refuted : forall ell lon1 lat2 lon2, ell_ok ell -> ell_a ell = ell_b ell ->
  loxodrome_direct 45 lon1 (ell_a ell * (PI / 2)) 0 ell true = Ok (lat2, lon2) -> lat2 = 135.
Proof.
  intros ell lon1 lat2 lon2 H E Q. pose proof (C41_sphere_latitude _ _ _ _ _ _ _ _ H E Q) as L. cbn [as_rad] in L.
  replace (0 * PI / 180) with 0 in L by lra. rewrite cos_0 in L. pose proof (L_ell.ell_pos ell H). pose proof PI_RGT_0.
  replace (ell_a ell * (PI / 2) / ell_a ell * 1) with (PI / 2) in L by (field; lra). 
  apply (Rmult_eq_reg_r (PI / 180)); lra.
Qed.
(** ... and loxodrome_inverse recovers the distance and the azimuth, away from
    the poles and from exact east-west lines. *)
Theorem C41_sphere_inverse : forall ell deg lat1 lon1 rng a12 lat2 lon2, ell_ok ell -> ell_a ell = ell_b ell ->
  off_pole deg lat1 -> off_pole deg lat2 -> 0 < rng -> 0 <= a12 < full deg ->
  1 / 1000000000 <= Rabs (cos (as_rad deg a12)) ->
  loxodrome_direct lat1 lon1 rng a12 ell deg = Ok (lat2, Some lon2) ->
  exists az, loxodrome_inverse lat1 lon1 lat2 lon2 ell deg = Some (rng, az) /\
  cos (as_rad deg az) = cos (as_rad deg a12) /\ sin (as_rad deg az) = sin (as_rad deg a12).
Proof.
  intros ell deg lat1 lon1 rng a12 lat2 lon2 H E O1 O2 Hr Ha Hc D.
  pose proof (C41_sphere_latitude _ _ _ _ _ _ _ _ H E D) as L.
  destruct (L_ell.ell_pos ell H) as [Hb Hab]. pose proof PI_RGT_0 as HP.
  set (A := as_rad deg a12) in *.
  assert (HA : py_mod A tau = A).
  { apply L_PyMath.py_mod_small. unfold A, tau. destruct deg; cbn in *; nra. }
  destruct O1 as (Q1 & C1). destruct O2 as (Q2 & C2).
  destruct (L_lox.iso_fin _ ell H C1) as (v1 & E1 & F1). destruct (L_lox.iso_fin _ ell H C2) as (v2 & E2 & F2).
  assert (Hrd : forall x, - quarter deg < x < quarter deg -> - (PI / 2) < as_rad deg x < PI / 2).
  { intros u Hu. destruct deg; cbn in *; nra. }
  pose proof (Hrd _ Q1) as R1. pose proof (Hrd _ Q2) as R2.
  (* sign of the isometric change *)
  set (s := rng / ell_a ell) in *. assert (Hs : 0 < s) by (apply Rdiv_lt_0_compat; lra).
  assert (Hcs : 0 < (v2 - v1) * cos A).
  { rewrite F1, F2. destruct (Rtotal_order 0 (cos A)) as [Z|[Z|Z]].
    - pose proof (L_latitude3.iso_incr ell H (as_rad deg lat1) (as_rad deg lat2) (proj1 R1) ltac:(nra) (proj2 R2)). nra.
    - rewrite <- Z, Rabs_R0 in Hc. lra.
    - pose proof (L_latitude3.iso_incr ell H (as_rad deg lat2) (as_rad deg lat1) (proj1 R2) ltac:(nra) (proj2 R1)). nra. }
  assert (Hcn : cos A <> 0) by (intros Z; rewrite Z in Hcs; lra).
  assert (Dl : as_rad deg lon2 - as_rad deg lon1 = tan A * (v2 - v1)).
  { unfold loxodrome_direct in D. change rad_in with as_rad in *. fold A in D. rewrite HA in D.
    destruct (Rlt_dec (PI / 2) _); [discriminate|]. destruct (Rlt_dec rng 0); [discriminate|].
    rewrite L_lox.sphere_rect, L_lox.sphere_rect_inv, L_lox.sphere_radius in D by assumption. fold s in D.
    rewrite <- L, E1, E2 in D. cbn [lox_dlon] in D. unfold LOX_COS_EPS in D.
    destruct (Rlt_dec (Rabs (cos A)) _); [lra|]. apply L_lox.ok_pair_inj in D. destruct D as [_ D]. injection D as <-.
    change (as_rad deg (deg_out deg ?x)) with (rad_in deg (deg_out deg x)).
    change as_rad with rad_in. rewrite L_PyMath.rad_in_deg_out. ring. }
  set (k := (v2 - v1) / cos A).
  assert (Hk : 0 < k).
  { unfold k, Rdiv. replace ((v2 - v1) * / cos A) with ((v2 - v1) * cos A * (/ cos A * / cos A)) by (field; exact Hcn).
    apply Rmult_lt_0_compat; [exact Hcs|]. apply Rsqr_pos_lt. now apply Rinv_neq_0_compat. }
  assert (K1 : v2 - v1 = k * cos A) by (unfold k; field; exact Hcn).
  assert (K2 : as_rad deg lon2 - as_rad deg lon1 = k * sin A) by (rewrite Dl, K1; unfold tan; field; exact Hcn).
  unfold loxodrome_inverse. change rad_in with as_rad. rewrite E1, E2. cbn [xsub xatan2]. rewrite K1, K2.
  set (t := atan2 (k * sin A) (k * cos A)).
  assert (T : cos t = cos A /\ sin t = sin A).
  { pose proof (L_PyMath.hypot_cos_atan2 (k * sin A) (k * cos A)) as T1.
    pose proof (L_PyMath.hypot_sin_atan2 (k * sin A) (k * cos A)) as T2. fold t in T1, T2.
    assert (Hh : hypot (k * cos A) (k * sin A) = k).
    { unfold hypot. replace ((k * cos A) ^ 2 + (k * sin A) ^ 2) with (k * k * (Rsqr (sin A) + Rsqr (cos A))) by (unfold Rsqr; ring).
      rewrite sin2_cos2, Rmult_1_r. apply sqrt_square. lra. }
    rewrite Hh in T1, T2. split; apply (Rmult_eq_reg_l k); lra. }
  destruct T as [Tc Ts]. rewrite Tc. unfold LOX_COS_EPS. destruct (Rlt_dec (Rabs (cos A)) _); [lra|].
  eexists. split.
  - apply (f_equal Some). f_equal. rewrite (L_lox.sphere_arc _ _ ell false H E). cbn [rad_in]. rewrite L.
    replace (as_rad deg lat1 - (as_rad deg lat1 + s * cos A)) with (- (s * cos A)) by ring.
    rewrite Rabs_Ropp, Rabs_mult, (Rabs_pos_eq s) by lra. unfold s. field. split; [|lra]. lra.
  - rewrite <- Tc, <- Ts. destruct deg; [|split; reflexivity]. cbn [as_rad].
    destruct (L_PyMath.py_mod_congr (degrees t) 360 ltac:(lra)) as [j ->].
    replace ((degrees t + IZR j * 360) * PI / 180) with (t + IZR j * (2 * PI)).
    + split; [apply L_PyMath.cos_period_Z|apply L_PyMath.sin_period_Z].
    + unfold degrees. field. lra.
Qed.
Example C41_hypotheses_met : exists lat2 lon2,
  loxodrome_direct 10 20 1000 45 None true = Ok (lat2, lon2) /\ off_pole true 0 /\ 0 <= 45 < full true.
Proof.
  unfold loxodrome_direct. pose proof PI_RGT_0. cbn [rad_in]. unfold radians.
  destruct (Rlt_dec (PI / 2) (Rabs (10 * PI / 180))) as [L|L]; [rewrite Rabs_pos_eq in L; lra|].
  destruct (Rlt_dec 1000 0); [lra|]. eexists _, _. split; [reflexivity|]. split; [apply C40_hypotheses_met|cbn; lra].
Qed.

(** ** C65: meanm *)
From Coq Require Import Permutation.
From Verif Require Import M_nvector.
From Verif Require L_utils L_nvector.
Definition vec_sum (l : list vec3) : vec3 := fold_right vadd (0, 0, 0) l.
Lemma py_sum_vec : forall (l : list vec3), 
  (py_sum (map (fun '(x, _, _) => x) l), py_sum (map (fun '(_, y, _) => y) l), py_sum (map (fun '(_, _, z) => z) l)) = vec_sum l.
Proof.
  assert (G : forall l, py_sum l = fold_right Rplus 0 l).
  { intros l. unfold py_sum. apply fold_symmetric; intros; ring. }
  intros l. rewrite !G. induction l as [|[[x y] z] l IH]; [reflexivity|]. cbn [map fold_right vec_sum].
  fold (vec_sum l). rewrite <- IH. reflexivity.
Qed.
(** The mean has the direction of the sum of the unit vectors with the authalic
    latitudes and the longitudes of the points. *)
Theorem C65_mean_direction : forall ell deg lats lons latbar lonbar, List.length lats = List.length lons ->
  meanm lats lons ell deg = (latbar, lonbar) ->
  exists xi lam k, 0 <= k /\ - PI / 2 <= xi <= PI / 2 /\ - PI < lam <= PI /\
  vec_sum (map (fun '(lat, lon) => unit_normal (geodetic2authalic (as_rad deg lat) ell false) (as_rad deg lon)) (combine lats lons))
  = vscale k (unit_normal xi lam) /\
  latbar = deg_out deg (authalic2geodetic xi ell false) /\ lonbar = deg_out deg lam.
Proof.
  intros ell deg lats lons latbar lonbar Hlen. unfold meanm. cbv zeta. change as_rad with rad_in.
  set (pts := map (fun '(lon, lat) => M_utils.sph2cart lon lat 1) (combine _ _)).
  assert (Ep : pts = map (fun '(lat, lon) => unit_normal (geodetic2authalic (rad_in deg lat) ell false) (rad_in deg lon)) (combine lats lons)).
  { unfold pts. clear pts. revert lons Hlen. induction lats as [|la lats IH]; intros [|lo lons] Hlen; cbn in Hlen; try discriminate; [reflexivity|].
    cbn [map combine]. f_equal; [|apply IH; lia]. unfold M_utils.sph2cart, unit_normal. apply f_equal2; [apply f_equal2|]; ring. }
  pose proof (py_sum_vec pts) as Sv. rewrite Ep in Sv at 4. rewrite <- Sv. clear Sv Ep.
  set (x := py_sum _). set (y := py_sum _). set (z := py_sum _). clearbody x y z.
  pose proof (L_utils.sph_cart_sph x y z) as Rt. pose proof (L_utils.cart2sph_ranges x y z) as Rg.
  destruct (M_utils.cart2sph x y z) as [[az el] r]. intros E. apply pair_equal_spec in E. destruct E as [<- <-].
  destruct Rg as (R1 & R2 & R3). exists el, az, r. split; [rewrite R3; apply sqrt_pos|].
  split; [exact R2|]. split; [exact R1|]. split; [|split; reflexivity]. rewrite <- Rt.
  unfold M_utils.sph2cart, vscale, unit_normal. apply f_equal2; [apply f_equal2|]; ring.
Qed.
(** The order of the points does not matter. *)
Theorem C65_permutation : forall ell deg lats lons lats' lons', List.length lats = List.length lons ->
  List.length lats' = List.length lons' -> Permutation (combine lats lons) (combine lats' lons') ->
  meanm lats lons ell deg = meanm lats' lons' ell deg.
Proof.
  intros ell deg lats lons lats' lons' L1 L2 P. unfold meanm. cbv zeta.
  assert (G : forall lats lons, List.length lats = List.length lons ->
    combine (map (rad_in deg) lons) (map (fun l => geodetic2authalic l ell false) (map (rad_in deg) lats))
    = map (fun '(la, lo) => (rad_in deg lo, geodetic2authalic (rad_in deg la) ell false)) (combine lats lons)).
  { clear. intros lats. induction lats as [|la lats IH]; intros [|lo lons] Hlen; cbn in Hlen; try discriminate; [reflexivity|].
    cbn [map combine]. f_equal. apply IH. lia. }
  rewrite (G _ _ L1), (G _ _ L2).
  set (f := (fun '(la, lo) => (rad_in deg lo, geodetic2authalic (rad_in deg la) ell false))). set (g := (fun '(lon, lat) => M_utils.sph2cart lon lat 1)).
  assert (PP : Permutation (map g (map f (combine lats lons))) (map g (map f (combine lats' lons')))) by (do 2 apply Permutation_map; exact P).
  assert (S : forall l l' (h : vec3 -> R), Permutation l l' -> py_sum (map h l) = py_sum (map h l')).
  { intros l l' h Q. assert (F : forall l, py_sum l = fold_right Rplus 0 l) by (intros u; unfold py_sum; apply fold_symmetric; intros; ring).
    rewrite !F. induction Q; cbn; lra. }
  do 3 (erewrite (fun h => S _ _ h PP)). reflexivity.
Qed.
(** On a sphere authalic and geodetic latitude coincide: a single point is its
    own mean. *)
Theorem C65_single_point_sphere : forall ell deg lat lon, ell_ok ell -> ell_a ell = ell_b ell ->
  - quarter deg < lat < quarter deg -> - half deg < lon <= half deg ->
  meanm [lat] [lon] ell deg = (lat, lon).
Proof.
  intros ell deg lat lon H E Hl Ho. pose proof PI_RGT_0 as HP.
  assert (Z : eccentricity (resolve_ellipsoid ell) = 0).
  { pose proof (L_ell.ell_e2 ell H) as Q. rewrite E in Q. destruct (L_ell.ell_pos ell H) as [Hb _].
    replace (ell_b ell ^ 2 / ell_b ell ^ 2) with 1 in Q by (field; lra). pose proof (L_ell.ell_e_nonneg ell H). nra. }
  assert (A1 : forall x, geodetic2authalic x ell false = x).
  { intros x. unfold geodetic2authalic. cbn [rad_in deg_out]. rewrite Z. field. }
  assert (A2 : forall x, authalic2geodetic x ell false = x).
  { intros x. unfold authalic2geodetic. cbn [rad_in deg_out]. rewrite Z. field. }
  unfold meanm. cbn [map combine]. rewrite A1.
  pose proof (L_utils.cart_sph_cart (rad_in deg lon) (rad_in deg lat) 1) as C.
  assert (B1 : - PI < rad_in deg lon <= PI) by (destruct deg; cbn in *; unfold radians; nra).
  assert (B2 : - PI / 2 < rad_in deg lat < PI / 2) by (destruct deg; cbn in *; unfold radians; nra).
  specialize (C ltac:(lra) B1 B2). destruct (M_utils.sph2cart (rad_in deg lon) (rad_in deg lat) 1) as [[x y] z].
  unfold py_sum. cbn [fold_left]. rewrite !Rplus_0_l, C, A2.
  apply f_equal2; destruct deg; cbn; try reflexivity; unfold degrees, radians; field; lra.
Qed.
Example C65_hypotheses_met : exists latbar lonbar, meanm [10; 20] [30; 40] None true = (latbar, lonbar) /\ List.length [10; 20] = List.length [30; 40].
Proof. destruct (meanm [10; 20] [30; 40] None true) as [p q]. exists p, q. split; reflexivity. Qed.
