(** Properties C43 (vdist), C44 (vreckon), C45 (vdist on arrays), C46 (track2) and
    C66 (Euler radius). *)
From Coq Require Import Lia Psatz.
From Coquelicot Require Import Coquelicot.
From Verif Require Import PyMath M_ellipsoid M_rcurve M_vincenty Spec.
From Verif Require L_lox L_eci L_PyMath L_ell L_ecef L_aer L_nvector L_rcurve L_utils L_vincenty L_vincenty2 L_vincenty3 L_vincenty4 L_vincenty5.
Open Scope R_scope.

(** ** Specification *)
Definition lat_ok (deg : bool) (lat : R) : Prop := - quarter deg <= lat <= quarter deg.
(** More than 1e-10 rad away from both poles: where the code leaves a latitude as it is. *)
Definition clear_of_poles (deg : bool) (lat : R) : Prop := Rabs (as_rad deg lat) <= PI/2 - 1 / 10 ^ 10.
(** The direction with latitude [lat] and longitude [lon]. *)
Definition dir (deg : bool) (lat lon : R) : vec3 := unit_normal (as_rad deg lat) (as_rad deg lon).
(** Great-circle bearing, clockwise from north, of [q] seen from latitude/longitude. *)
Definition is_bearing (deg : bool) (lat lon : R) (q : vec3) (az : R) : Prop :=
  let e := vdot q (east_axis (as_rad deg lat) (as_rad deg lon)) in
  let n := vdot q (north_axis (as_rad deg lat) (as_rad deg lon)) in
  sqrt (n ^ 2 + e ^ 2) * sin (as_rad deg az) = e /\ sqrt (n ^ 2 + e ^ 2) * cos (as_rad deg az) = n.
(** The point reached from a start direction by the arc [s] along the bearing [az]. *)
Definition arc_end (deg : bool) (lat lon az s : R) : vec3 :=
  let phi := as_rad deg lat in let lam := as_rad deg lon in let a := as_rad deg az in
  vadd (vscale (cos s) (unit_normal phi lam))
       (vscale (sin s) (vadd (vscale (cos a) (north_axis phi lam)) (vscale (sin a) (east_axis phi lam)))).
Definition mild (ell : option Ellipsoid) : Prop := ell_ok ell /\ ell_a ell ^ 2 <= 2 * ell_b ell ^ 2.

(** ** C43: vdist *)
Theorem C43_latitude_guard : forall lat1 lon1 lat2 lon2 ell deg,
  (lat_ok deg lat1 /\ lat_ok deg lat2 -> exists d az, vdist lat1 lon1 lat2 lon2 ell deg = Ok (d, az)) /\
  (~ (lat_ok deg lat1 /\ lat_ok deg lat2) -> vdist lat1 lon1 lat2 lon2 ell deg = Raise ValueError).
Proof.
  intros. split.
  - intros [H1 H2]. rewrite (L_vincenty3.vdist_ok _ _ _ _ _ _ H1 H2). cbv zeta. eauto.
  - apply L_vincenty3.vdist_guard.
Qed.
Lemma vdist_lats lat1 lon1 lat2 lon2 ell deg r : vdist lat1 lon1 lat2 lon2 ell deg = Ok r -> lat_ok deg lat1 /\ lat_ok deg lat2.
Proof.
  intros E. destruct (Rle_dec (- quarter deg) lat1); [destruct (Rle_dec lat1 (quarter deg)); [destruct (Rle_dec (- quarter deg) lat2); [destruct (Rle_dec lat2 (quarter deg))|]|]|].
  1: now unfold lat_ok.
  all: rewrite L_vincenty3.vdist_guard in E by lra; discriminate.
Qed.
Theorem C43_azimuth_range : forall lat1 lon1 lat2 lon2 ell deg d az,
  vdist lat1 lon1 lat2 lon2 ell deg = Ok (d, az) -> 0 <= az < full deg.
Proof.
  intros lat1 lon1 lat2 lon2 ell deg d az E. destruct (vdist_lats _ _ _ _ _ _ _ E) as [H1 H2].
  rewrite (L_vincenty3.vdist_ok _ _ _ _ _ _ H1 H2) in E. cbv zeta in E. apply L_lox.ok_pair_inj in E. destruct E as [_ <-].
  apply L_vincenty3.deg_out_range. unfold vdist_azimuth. cbv zeta. apply L_PyMath.py_mod_range, L_PyMath.tau_pos.
Qed.
Theorem C43_distance_symmetric : forall lat1 lon1 lat2 lon2 ell deg d az d' az',
  vdist lat1 lon1 lat2 lon2 ell deg = Ok (d, az) -> vdist lat2 lon2 lat1 lon1 ell deg = Ok (d', az') -> d = d'.
Proof.
  intros lat1 lon1 lat2 lon2 ell deg d az d' az' E E'. destruct (vdist_lats _ _ _ _ _ _ _ E) as [H1 H2].
  rewrite (L_vincenty3.vdist_ok _ _ _ _ _ _ H1 H2) in E. rewrite (L_vincenty3.vdist_ok _ _ _ _ _ _ H2 H1) in E'. cbv zeta in E, E'.
  apply L_lox.ok_pair_inj in E. destruct E as [<- _]. apply L_lox.ok_pair_inj in E'. destruct E' as [<- _]. rewrite (L_vincenty.lon_gap_sym (rad_in deg lon2)), (L_vincenty.vdist_loop_sym 50 _ _ (L_vincenty3.vU ell deg lat2)). reflexivity.
Qed.
(** Whole turns of either longitude and a common rotation change nothing. *)
Theorem C43_longitude_invariance : forall lat1 lon1 lat2 lon2 ell deg (k1 k2 : Z) d,
  vdist lat1 (lon1 + IZR k1 * full deg + d) lat2 (lon2 + IZR k2 * full deg + d) ell deg = vdist lat1 lon1 lat2 lon2 ell deg.
Proof.
  intros. assert (RD : forall l k, rad_in deg (l + IZR k * full deg + d) = rad_in deg l + IZR k * (2 * PI) + rad_in deg d).
  { intros l k. destruct deg; cbn [rad_in full]; [unfold radians; field|reflexivity]. }
  unfold vdist. rewrite !RD, L_vincenty.lon_gap_shift. cbv zeta. destruct (_ || _)%bool; [reflexivity|].
  destruct (vdist_loop _ _ _ _ _ _ _) as [l s]. apply (f_equal (fun z => Ok (vdist_length (semimajor_axis (resolve_ellipsoid ell)) (semiminor_axis (resolve_ellipsoid ell)) s, deg_out deg z))).
  rewrite !L_vincenty.vdist_azimuth_eq. unfold L_vincenty.v_signed.
  replace (rad_in deg lon2 + IZR k2 * (2 * PI) + rad_in deg d - (rad_in deg lon1 + IZR k1 * (2 * PI) + rad_in deg d))
    with (rad_in deg lon2 - rad_in deg lon1 + IZR (k2 - k1) * (2 * PI)) by (rewrite minus_IZR; ring).
  rewrite L_PyMath.sin_period_Z. reflexivity.
Qed.
Theorem C43_north_south_mirror : forall lat1 lon1 lat2 lon2 ell deg d az d' az',
  vdist lat1 lon1 lat2 lon2 ell deg = Ok (d, az) -> vdist (- lat1) lon1 (- lat2) lon2 ell deg = Ok (d', az') -> d = d'.
Proof.
  intros lat1 lon1 lat2 lon2 ell deg d az d' az' E E'. destruct (vdist_lats _ _ _ _ _ _ _ E) as [H1 H2]. destruct (vdist_lats _ _ _ _ _ _ _ E') as [H3 H4].
  rewrite (L_vincenty3.vdist_ok _ _ _ _ _ _ H1 H2) in E. rewrite (L_vincenty3.vdist_ok _ _ _ _ _ _ H3 H4) in E'. cbv zeta in E, E'.
  apply L_lox.ok_pair_inj in E. destruct E as [<- _]. apply L_lox.ok_pair_inj in E'. destruct E' as [<- _].
  assert (V : forall lat, L_vincenty3.vU ell deg (- lat) = - L_vincenty3.vU ell deg lat).
  { intros lat. unfold L_vincenty3.vU. now rewrite L_aer.rad_in_opp, L_vincenty.nudge_opp, L_vincenty.reduced_opp. }
  rewrite !V, L_vincenty.vdist_loop_neg. reflexivity.
Qed.
(** East-west mirror image: same distance, mirrored azimuth. *)
Theorem C43_east_west_mirror : forall lat1 lon1 lat2 lon2 ell deg d az d' az',
  vdist lat1 lon1 lat2 lon2 ell deg = Ok (d, az) -> vdist lat1 (- lon1) lat2 (- lon2) ell deg = Ok (d', az') ->
  d = d'.
Proof.
  intros lat1 lon1 lat2 lon2 ell deg d az d' az' E E'. destruct (vdist_lats _ _ _ _ _ _ _ E) as [H1 H2].
  rewrite (L_vincenty3.vdist_ok _ _ _ _ _ _ H1 H2) in E. rewrite (L_vincenty3.vdist_ok _ _ _ _ _ _ H1 H2) in E'. cbv zeta in E, E'.
  apply L_lox.ok_pair_inj in E. destruct E as [<- _]. apply L_lox.ok_pair_inj in E'. destruct E' as [<- _]. rewrite !L_aer.rad_in_opp.
  replace (lon_gap (- rad_in deg lon1) (- rad_in deg lon2)) with (lon_gap (rad_in deg lon1) (rad_in deg lon2)); [reflexivity|].
  rewrite (L_vincenty.lon_gap_sym (- rad_in deg lon1)), !L_vincenty.lon_gap_wrap. f_equal. ring.
Qed.
Theorem C43_coincident_is_zero : forall lat lon ell deg (k : Z), lat_ok deg lat ->
  exists az, vdist lat lon lat (lon + IZR k * full deg) ell deg = Ok (0, az).
Proof.
  intros lat lon ell deg k H. pose proof (C43_longitude_invariance lat lon lat lon ell deg 0 k 0) as E.
  replace (lon + IZR 0 * full deg + 0) with lon in E by (simpl IZR; ring). rewrite Rplus_0_r in E. rewrite E.
  rewrite (L_vincenty3.vdist_ok _ _ _ _ _ _ H H). cbv zeta.
  replace (lon_gap (rad_in deg lon) (rad_in deg lon)) with 0.
  - rewrite L_vincenty3.vdist_loop_coincident. cbn [fst snd]. rewrite L_vincenty3.vdist_length_0. eauto.
  - unfold lon_gap. cbv zeta. rewrite L_vincenty3.no_gap. destruct (Rlt_dec PI 0); [pose proof PI_RGT_0; lra|reflexivity].
Qed.
(** The distance is never negative, and is zero only for coincident points (poles
    being identified up to 1e-10 rad and the longitude up to whole turns). *)
Theorem C43_distance_nonnegative : forall lat1 lon1 lat2 lon2 ell deg d az, mild ell ->
  vdist lat1 lon1 lat2 lon2 ell deg = Ok (d, az) -> 0 <= d.
Proof.
  intros lat1 lon1 lat2 lon2 ell deg d az [He H2] E. destruct (vdist_lats _ _ _ _ _ _ _ E) as [L1 L2].
  rewrite (L_vincenty3.vdist_ok _ _ _ _ _ _ L1 L2) in E. cbv zeta in E. apply L_lox.ok_pair_inj in E. destruct E as [<- _].
  destruct (L_ell.ell_pos ell He) as [Hb Hab]. pose proof (L_ell.ell_f ell He) as Ef.
  assert (Fr : 0 <= flattening (resolve_ellipsoid ell) <= 1).
  { rewrite Ef. split; [apply Rmult_le_pos; [lra|left; apply Rinv_0_lt_compat; lra]|]. apply Rmult_le_reg_r with (ell_a ell); [lra|]. unfold Rdiv. rewrite Rmult_assoc, Rinv_l by lra. lra. }
  pose proof (L_vincenty.lon_gap_range (rad_in deg lon1) (rad_in deg lon2)) as G.
  destruct (L_vincenty3.vdist_state 49 ell deg lat1 lat2 _ He G) as (l' & B & ->).
  apply L_vincenty3.vdist_length_pos; assumption.
Qed.
Theorem C43_zero_only_if_coincident : forall lat1 lon1 lat2 lon2 ell deg az, mild ell ->
  clear_of_poles deg lat1 -> clear_of_poles deg lat2 ->
  vdist lat1 lon1 lat2 lon2 ell deg = Ok (0, az) -> lat1 = lat2 /\ exists k : Z, lon2 = lon1 + IZR k * full deg.
Proof.
  intros lat1 lon1 lat2 lon2 ell deg az [He H2] C1 C2 E. destruct (vdist_lats _ _ _ _ _ _ _ E) as [L1 L2].
  rewrite (L_vincenty3.vdist_ok _ _ _ _ _ _ L1 L2) in E. cbv zeta in E. apply L_lox.ok_pair_inj in E. destruct E as [E _].
  destruct (L_ell.ell_pos ell He) as [Hb Hab]. pose proof (L_ell.ell_f ell He) as Ef.
  assert (F1 : 0 < 1 - flattening (resolve_ellipsoid ell)).
  { rewrite Ef. replace (1 - (ell_a ell - ell_b ell) / ell_a ell) with (ell_b ell / ell_a ell) by (field; lra). apply Rdiv_lt_0_compat; lra. }
  assert (Fr : 0 <= flattening (resolve_ellipsoid ell) <= 1).
  { split; [|lra]. rewrite Ef. apply Rmult_le_pos; [lra|left; apply Rinv_0_lt_compat; lra]. }
  pose proof (L_vincenty.lon_gap_range (rad_in deg lon1) (rad_in deg lon2)) as G.
  destruct (L_vincenty3.vdist_state 49 ell deg lat1 lat2 _ He G) as (l' & B & EQ).
  rewrite EQ in E. apply L_vincenty3.vdist_length_pos in E; [|assumption..].
  apply L_vincenty3.v_sigma_0 in E; [|apply L_vincenty.reduced_range|apply L_vincenty.reduced_range|lra]. destruct E as [EU El].
  assert (G0 : lon_gap (rad_in deg lon1) (rad_in deg lon2) = 0) by lra.
  unfold clear_of_poles in C1, C2. change as_rad with rad_in in *.
  unfold L_vincenty3.vU in EU. rewrite !L_vincenty.nudge_id in EU by assumption. pose proof L_vincenty.ten10. split.
  - unfold reduced_lat in EU. apply (f_equal tan) in EU. rewrite !tan_atan in EU.
    assert (T : tan (rad_in deg lat1) = tan (rad_in deg lat2)) by (apply Rmult_eq_reg_l with (1 - flattening (resolve_ellipsoid ell)); lra).
    rewrite <- (L_PyMath.deg_out_rad_in deg lat1), <- (L_PyMath.deg_out_rad_in deg lat2). f_equal.
    rewrite <- (L_PyMath.atan_tan_id (rad_in deg lat1)), <- (L_PyMath.atan_tan_id (rad_in deg lat2)); [now rewrite T|..]; apply Rabs_le_between in C1, C2; lra.
  - rewrite L_vincenty.lon_gap_wrap in G0. destruct (L_lox.wrapdist_spec (rad_in deg lon2 - rad_in deg lon1)) as (_ & [k K] & _). rewrite G0 in K.
    symmetry in K. apply Rabs_eq_0 in K. exists k. pose proof PI_RGT_0. destruct deg; cbn [rad_in full] in *; [unfold radians in K|lra].
    apply Rmult_eq_reg_r with (PI / 180); lra.
Qed.
(** On a sphere: great-circle distance and bearing.  Exact away from the poles,
    within 2e-10 radii of arc everywhere. *)
Theorem C43_sphere : forall lat1 lon1 lat2 lon2 ell deg d az, ell_ok ell -> ell_a ell = ell_b ell ->
  clear_of_poles deg lat1 -> clear_of_poles deg lat2 ->
  vdist lat1 lon1 lat2 lon2 ell deg = Ok (d, az) ->
  d = ell_a ell * unit_angle (dir deg lat1 lon1) (dir deg lat2 lon2) /\
  is_bearing deg lat1 lon1 (dir deg lat2 lon2) az.
Proof.
  intros lat1 lon1 lat2 lon2 ell deg d az H E C1 C2 V. destruct (vdist_lats _ _ _ _ _ _ _ V) as [L1 L2].
  rewrite (L_vincenty3.vdist_sphere_val _ _ _ _ _ _ H E L1 L2) in V. unfold clear_of_poles in C1, C2. change as_rad with rad_in in *.
  rewrite !L_vincenty.nudge_id in V by assumption. apply L_eci.ok_inj in V. apply pair_equal_spec in V. destruct V as [<- <-].
  unfold dir, is_bearing. change as_rad with rad_in. split; [reflexivity|]. cbv zeta. change as_rad with rad_in. rewrite L_PyMath.rad_in_deg_out.
  unfold L_vincenty3.gc_bearing. rewrite L_PyMath.sin_py_mod, L_PyMath.cos_py_mod. split; [apply L_PyMath.hypot_sin_atan2|apply L_PyMath.hypot_cos_atan2].
Qed.
Theorem C43_sphere_everywhere : forall lat1 lon1 lat2 lon2 ell deg d az, ell_ok ell -> ell_a ell = ell_b ell ->
  vdist lat1 lon1 lat2 lon2 ell deg = Ok (d, az) ->
  Rabs (d - ell_a ell * unit_angle (dir deg lat1 lon1) (dir deg lat2 lon2)) <= ell_a ell * (2 / 10 ^ 10).
Proof.
  intros lat1 lon1 lat2 lon2 ell deg d az H E V. destruct (vdist_lats _ _ _ _ _ _ _ V) as [L1 L2].
  rewrite (L_vincenty3.vdist_sphere_val _ _ _ _ _ _ H E L1 L2) in V. apply L_eci.ok_inj in V. apply pair_equal_spec in V. destruct V as [<- _].
  destruct (L_ell.ell_pos ell H) as [Hb _]. unfold dir. change as_rad with rad_in.
  apply L_vincenty3.rad_in_bounds in L1, L2. set (p1 := rad_in deg lat1) in *. set (p2 := rad_in deg lat2) in *. set (l1 := rad_in deg lon1). set (l2 := rad_in deg lon2).
  pose proof (L_vincenty3.nudge_close _ L1) as N1. pose proof (L_vincenty3.nudge_close _ L2) as N2. pose proof L_vincenty.ten10 as T. pose proof L_vincenty.pi_gt3 as P3.
  pose proof (fun p => L_ecef.unit_normal_unit p l1) as I1. pose proof (fun p => L_ecef.unit_normal_unit p l2) as I2.
  pose proof (L_vincenty3.angle_same_lon (nudge_pole p1) p1 l1 ltac:(lra)) as A1. pose proof (L_vincenty3.angle_same_lon (nudge_pole p2) p2 l2 ltac:(lra)) as A2.
  rewrite <- Rmult_minus_distr_l, Rabs_mult, (Rabs_right (ell_a ell)) by lra. apply Rmult_le_compat_l; [lra|].
  pose proof (L_nvector.angle_triangle (unit_normal (nudge_pole p1) l1) (unit_normal p1 l1) (unit_normal (nudge_pole p2) l2) (I1 _) (I1 _) (I2 _)) as T1.
  pose proof (L_nvector.angle_triangle (unit_normal p1 l1) (unit_normal p2 l2) (unit_normal (nudge_pole p2) l2) (I1 _) (I2 _) (I2 _)) as T2.
  pose proof (L_nvector.angle_triangle (unit_normal p1 l1) (unit_normal (nudge_pole p1) l1) (unit_normal p2 l2) (I1 _) (I1 _) (I2 _)) as T3.
  pose proof (L_nvector.angle_triangle (unit_normal (nudge_pole p1) l1) (unit_normal (nudge_pole p2) l2) (unit_normal p2 l2) (I1 _) (I2 _) (I2 _)) as T4.
  rewrite (L_nvector.angle_sym (unit_normal p2 l2) (unit_normal (nudge_pole p2) l2)) in T2. rewrite (L_nvector.angle_sym (unit_normal p1 l1) (unit_normal (nudge_pole p1) l1)) in T3.
  replace (2 / 10 ^ 10) with (2 * (1 / 10 ^ 10)) by lra. set (t := 1 / 10 ^ 10) in *. apply Rabs_le. lra.
Qed.
(** Along the equator of an oblate ellipsoid (out to the longitude difference
    pi b/a where the equator stops being the shortest path): equatorial arc length
    a L to a relative 1e-12 of the radius, azimuth exactly east or west. *)
Theorem C43_equator : forall lon1 lon2 ell deg L, ell_ok ell -> ell_a ell <= 2 * ell_b ell ->
  0 < L < PI * (ell_b ell / ell_a ell) ->
  ((exists k : Z, as_rad deg lon2 = as_rad deg lon1 + L + IZR k * (2 * PI)) ->
   exists d, vdist 0 lon1 0 lon2 ell deg = Ok (d, quarter deg) /\ Rabs (d - ell_a ell * L) <= ell_a ell * (1 / 10 ^ 12)) /\
  ((exists k : Z, as_rad deg lon2 = as_rad deg lon1 - L + IZR k * (2 * PI)) ->
   exists d, vdist 0 lon1 0 lon2 ell deg = Ok (d, 3 * quarter deg) /\ Rabs (d - ell_a ell * L) <= ell_a ell * (1 / 10 ^ 12)).
Proof.
  intros lon1 lon2 ell deg L H Hab HL. destruct (L_ell.ell_pos ell H) as [Hb Hba].
  assert (Q : ell_b ell / ell_a ell <= 1) by (apply Rmult_le_reg_r with (ell_a ell); [lra|]; unfold Rdiv; rewrite Rmult_assoc, Rinv_l by lra; lra).
  pose proof PI_RGT_0 as P. assert (LP : 0 < L < PI) by nra. assert (SL : 0 < sin L) by (apply sin_gt_0; lra).
  assert (QQ : deg_out deg (PI/2) = quarter deg) by apply L_aer.deg_out_quarter.
  assert (Q3 : deg_out deg (3 * (PI/2)) = 3 * quarter deg) by (rewrite <- QQ; destruct deg; cbn; unfold degrees; lra).
  change as_rad with rad_in. split; intros [k K].
  - assert (G : L = lon_gap (rad_in deg lon1) (rad_in deg lon2)).
    { rewrite L_vincenty.lon_gap_wrap, K. replace (rad_in deg lon1 + L + IZR k * (2 * PI) - rad_in deg lon1) with (L + IZR k * (2 * PI)) by ring.
      rewrite L_lox.wrapdist_period, L_lox.wrapdist_small; rewrite Rabs_right; lra. }
    destruct (L_vincenty5.vdist_equator L ell deg lon1 lon2 H Hab G ltac:(lra) ltac:(lra)) as (d & az & E & B & A).
    replace (sin (rad_in deg lon2 - rad_in deg lon1)) with (sin L) in A.
    2: { rewrite K. replace (rad_in deg lon1 + L + IZR k * (2 * PI) - rad_in deg lon1) with (L + IZR k * (2 * PI)) by ring. now rewrite L_PyMath.sin_period_Z. }
    destruct (Rlt_dec (sin L) 0); [lra|]. exists d. rewrite E. rewrite <- QQ, <- A, L_PyMath.deg_out_rad_in. split; [reflexivity|exact B].
  - assert (G : L = lon_gap (rad_in deg lon1) (rad_in deg lon2)).
    { rewrite L_vincenty.lon_gap_wrap, K. replace (rad_in deg lon1 - L + IZR k * (2 * PI) - rad_in deg lon1) with (- L + IZR k * (2 * PI)) by ring.
      rewrite L_lox.wrapdist_period, L_lox.wrapdist_small; rewrite Rabs_Ropp, Rabs_right; lra. }
    destruct (L_vincenty5.vdist_equator L ell deg lon1 lon2 H Hab G ltac:(lra) ltac:(lra)) as (d & az & E & B & A).
    replace (sin (rad_in deg lon2 - rad_in deg lon1)) with (- sin L) in A.
    2: { rewrite K. replace (rad_in deg lon1 - L + IZR k * (2 * PI) - rad_in deg lon1) with (- L + IZR k * (2 * PI)) by ring. now rewrite L_PyMath.sin_period_Z, sin_neg. }
    destruct (Rlt_dec (- sin L) 0); [|lra]. exists d. rewrite E. rewrite <- Q3, <- A, L_PyMath.deg_out_rad_in. split; [reflexivity|exact B].
Qed.
Lemma wgs84_mild : mild None.
Proof. split; [exact I|]. cbn. lra. Qed.
Example C43_hypotheses_met : mild None /\ ell_a None <= 2 * ell_b None /\ lat_ok true 90 /\ ~ lat_ok true 91 /\ clear_of_poles true 45
  /\ 0 < 1 < PI * (ell_b None / ell_a None).
Proof.
  split; [apply wgs84_mild|]. split; [cbn; lra|]. unfold lat_ok, clear_of_poles. cbn [quarter as_rad]. split; [lra|]. split; [lra|].
  pose proof L_vincenty.pi_gt3. pose proof L_vincenty.ten10. split; [rewrite Rabs_right; lra|]. cbn [ell_a ell_b]. split; [lra|].
  assert (99 / 100 <= 635675231424518 / 100000000 / 6378137) by lra. nra.
Qed.
Theorem C43_named_models_mild : forall name e, from_name name = Ok e -> mild (Some e) /\ ell_a (Some e) <= 2 * ell_b (Some e).
Proof.
  intros name e H. destruct (L_utils.from_name_flat name e H) as [A B]. cbn in A, B. destruct (L_ell.ell_pos (Some e) A) as [Hb Hab]. cbn in Hb, Hab.
  split; [split; [exact A|cbn; nra]|cbn; lra].
Qed.

(** ** C44: vreckon *)
Theorem C44_guards : forall fuel lat1 lon1 rng az ell deg, rng < 0 \/ ~ lat_ok deg lat1 ->
  vreckon fuel lat1 lon1 rng az ell deg = Some (Raise ValueError).
Proof. intros fuel lat1 lon1 rng az ell deg [H|H]; [now apply L_vincenty4.vreckon_neg|now apply L_vincenty4.vreckon_badlat]. Qed.
(** The while loop ends after at most 71 passes, whatever the start, range and
    azimuth; the result does not depend on the number of passes allowed. *)
Theorem C44_terminates : forall lat1 lon1 rng az ell deg, mild ell ->
  exists r, forall fuel, (71 <= fuel)%nat -> vreckon fuel lat1 lon1 rng az ell deg = Some r.
Proof.
  intros lat1 lon1 rng az ell deg [He H2]. destruct (Rlt_dec rng 0) as [N|N].
  { exists (Raise ValueError). intros. now apply L_vincenty4.vreckon_neg. }
  destruct (Rle_dec (- quarter deg) lat1) as [A|A]; [destruct (Rle_dec lat1 (quarter deg)) as [B|B]|].
  2,3: exists (Raise ValueError); intros; apply L_vincenty4.vreckon_badlat; lra.
  set (r := vreckon 71 lat1 lon1 rng az ell deg). assert (X : exists v, r = Some v /\ forall fuel, (71 <= fuel)%nat -> vreckon fuel lat1 lon1 rng az ell deg = Some v).
  { destruct (L_ell.ell_pos ell He) as [Hb Hab]. set (k := L_vincenty4.vk ell (rad_in deg lat1) (rad_in deg az)). set (b := L_vincenty4.vbase ell (rad_in deg lat1) (rad_in deg az) rng).
    destruct (L_vincenty2.vreck_init_ok (ell_a ell) (ell_b ell) (flattening (resolve_ellipsoid ell)) (nudge_pole (rad_in deg lat1)) (rad_in deg az) Hb Hab H2) as [KB _].
    fold (L_vincenty4.vk ell (rad_in deg lat1) (rad_in deg az)) in KB. fold k in KB.
    destruct (L_vincenty2.vreck_loop_total k b 71 b KB (L_vincenty2.first_gap k b KB) ltac:(lia)) as (sP & s' & E & _).
    assert (V : forall fuel, (71 <= fuel)%nat -> vreckon fuel lat1 lon1 rng az ell deg = r).
    { intros fuel Hf. unfold r. rewrite !L_vincenty4.vreckon_ok by lra. cbv zeta. fold k b.
      rewrite (L_vincenty2.vreck_loop_mono k b 71 fuel b (sP, s') Hf E), E. reflexivity. }
    assert (W : exists v, r = Some v).
    { unfold r. rewrite L_vincenty4.vreckon_ok by lra. cbv zeta. fold k b. rewrite E. destruct (Rlt_dec _ _); [|eauto]. destruct (vreck_end _ _ _ _ _). eauto. }
    destruct W as [v W]. exists v. split; [exact W|]. intros fuel Hf. now rewrite (V fuel Hf). }
  destruct X as (v & _ & X). exists v. exact X.
Qed.
Theorem C44_output_ranges_partial : forall fuel lat1 lon1 rng az ell deg lat2 lon2, ell_ok ell ->
  vreckon fuel lat1 lon1 rng az ell deg = Some (Ok (Some (lat2, lon2))) -> lat_ok deg lat2 /\ 0 <= lon2 < full deg.
Proof.
  intros fuel lat1 lon1 rng az ell deg lat2 lon2 He E. destruct (Rlt_dec rng 0) as [N|N].
  { rewrite L_vincenty4.vreckon_neg in E by assumption. discriminate. }
  destruct (Rle_dec (- quarter deg) lat1) as [A|A]; [destruct (Rle_dec lat1 (quarter deg)) as [B|B]|].
  2,3: rewrite L_vincenty4.vreckon_badlat in E by lra; discriminate.
  rewrite L_vincenty4.vreckon_ok in E by lra. cbv zeta in E. destruct (Rlt_dec _ _); [|discriminate].
  destruct (vreck_loop _ _ _ _) as [[sP s]|]; [|discriminate]. destruct (L_ell.ell_pos ell He) as [Hb Hab]. pose proof (L_ell.ell_f ell He) as Ef.
  assert (F1 : flattening (resolve_ellipsoid ell) <= 1).
  { rewrite Ef. apply Rmult_le_reg_r with (ell_a ell); [lra|]. unfold Rdiv. rewrite Rmult_assoc, Rinv_l by lra. lra. }
  match type of E with context [vreck_end ?f ?l ?k sP s] => pose proof (L_vincenty2.vreck_end_lat_range f l k sP s F1) as R1; pose proof (L_vincenty2.vreck_end_lon_range f l k sP s) as R2 end.
  destruct (vreck_end _ _ _ _ _) as [la lo]. cbn [fst snd] in R1, R2. injection E as <- <-. split; [|now apply L_vincenty3.deg_out_range].
  unfold lat_ok. rewrite <- L_aer.deg_out_mquarter, <- L_aer.deg_out_quarter. split; apply L_aer.deg_out_le; lra.
Qed.
(** Range 0 returns the start point (longitude reduced to [0, 360)). *)
Theorem C44_zero_range : forall fuel lat1 lon1 az ell deg, ell_ok ell -> (1 <= fuel)%nat -> clear_of_poles deg lat1 ->
  vreckon fuel lat1 lon1 0 az ell deg = Some (Ok (Some (lat1, py_mod lon1 (full deg)))).
Proof.
  intros fuel lat1 lon1 az ell deg He Hf C. unfold clear_of_poles in C. change as_rad with rad_in in *. pose proof L_vincenty.ten10 as T. pose proof L_vincenty.pi_gt3 as P.
  assert (B : - (PI/2) <= rad_in deg lat1 <= PI/2) by (apply Rabs_le_between in C; lra).
  rewrite L_vincenty4.vreckon_ok by (try apply L_vincenty3.rad_in_bounds; lra). cbv zeta.
  replace (L_vincenty4.vbase ell (rad_in deg lat1) (rad_in deg az) 0) with 0 by (unfold L_vincenty4.vbase, Rdiv; ring).
  destruct (Rlt_dec _ _) as [_|N].
  2: { exfalso. apply N. rewrite Rabs_left by lra. assert (1 / 10 ^ 12 < 1) by lra. lra. }
  destruct fuel as [|n]; [lia|]. rewrite L_vincenty4.vreck_loop_0. destruct (L_ell.ell_pos ell He) as [Hb Hab]. pose proof (L_ell.ell_f ell He) as Ef.
  unfold L_vincenty4.vk. rewrite (L_vincenty.nudge_id _ C). rewrite L_vincenty4.vreck_end_0.
  - rewrite L_PyMath.deg_out_rad_in. do 4 f_equal.
    destruct deg; cbn [deg_out rad_in full]; [|reflexivity]. unfold tau, py_mod, degrees, radians. 
    replace (lon1 * PI / 180 / (2 * PI)) with (lon1 / 360) by (field; apply PI_neq0). field. apply PI_neq0.
  - rewrite Ef. apply Rmult_lt_reg_r with (ell_a ell); [lra|]. unfold Rdiv. rewrite Rmult_assoc, Rinv_l by lra. lra.
  - apply Rabs_le_between in C. lra.
Qed.
(** On a sphere: exact great-circle motion by the arc rng / radius. *)
Theorem C44_sphere : forall fuel lat1 lon1 rng az ell deg, ell_ok ell -> ell_a ell = ell_b ell -> 0 <= rng -> (1 <= fuel)%nat ->
  clear_of_poles deg lat1 -> 1 / 10 ^ 12 < Rabs (rng / ell_a ell - 2 * PI) ->
  exists lat2 lon2, vreckon fuel lat1 lon1 rng az ell deg = Some (Ok (Some (lat2, lon2))) /\
    dir deg lat2 lon2 = arc_end deg lat1 lon1 az (rng / ell_a ell).
Proof.
  intros fuel lat1 lon1 rng az ell deg H E Hr Hf C G. unfold clear_of_poles in C. change as_rad with rad_in in *. pose proof L_vincenty.ten10 as T.
  assert (B : - quarter deg <= lat1 <= quarter deg) by (apply L_vincenty3.rad_in_bounds; apply Rabs_le_between in C; lra).
  destruct (L_vincenty4.vreckon_sphere fuel lat1 lon1 rng az ell deg H E Hr B Hf G) as (lat2 & lon2 & V & D & _).
  exists lat2, lon2. split; [exact V|]. unfold dir, arc_end. change as_rad with rad_in. rewrite D, L_vincenty.nudge_id by exact C. reflexivity.
Qed.
(** vreckon undoes vdist exactly on a sphere. *)
Theorem C44_inverts_vdist_on_sphere : forall fuel lat1 lon1 lat2 lon2 ell deg d az, ell_ok ell -> ell_a ell = ell_b ell -> (1 <= fuel)%nat ->
  clear_of_poles deg lat1 -> clear_of_poles deg lat2 ->
  vdist lat1 lon1 lat2 lon2 ell deg = Ok (d, az) ->
  vreckon fuel lat1 lon1 d az ell deg = Some (Ok (Some (lat2, py_mod lon2 (full deg)))).
Proof.
  intros fuel lat1 lon1 lat2 lon2 ell deg d az H E Hf C1 C2 V. destruct (vdist_lats _ _ _ _ _ _ _ V) as [L1 L2].
  rewrite (L_vincenty3.vdist_sphere_val _ _ _ _ _ _ H E L1 L2) in V. apply L_eci.ok_inj in V. apply pair_equal_spec in V. destruct V as [<- <-].
  destruct (L_ell.ell_pos ell H) as [Hb _]. pose proof L_vincenty.ten10 as T. pose proof L_vincenty.pi_gt3 as P3.
  unfold clear_of_poles in C1, C2. change as_rad with rad_in in *. rewrite !L_vincenty.nudge_id by assumption.
  pose proof (L_nvector.angle_range _ _ (L_ecef.unit_normal_unit (rad_in deg lat1) (rad_in deg lon1)) (L_ecef.unit_normal_unit (rad_in deg lat2) (rad_in deg lon2))) as AR.
  set (th := unit_angle _ _) in *.
  assert (Q : ell_a ell * th / ell_a ell = th) by (field; lra).
  destruct (L_vincenty4.vreckon_sphere fuel lat1 lon1 (ell_a ell * th) (deg_out deg (L_vincenty3.gc_bearing (rad_in deg lat1) (rad_in deg lon1) (rad_in deg lat2) (rad_in deg lon2))) ell deg H E) as (la & lo & V & D & R1 & R2).
  - apply Rmult_le_pos; lra.
  - exact L1.
  - exact Hf.
  - rewrite Q, Rabs_left by lra. assert (1 / 10 ^ 12 < 1) by lra. lra.
  - rewrite Q, L_PyMath.rad_in_deg_out, L_vincenty.nudge_id in D by exact C1. unfold th in D. rewrite L_vincenty4.gc_move_target in D.
    assert (B2 : - (PI/2) < rad_in deg lat2 < PI/2) by (apply Rabs_le_between in C2; lra).
    destruct (L_vincenty4.unit_normal_inj _ _ _ _ R1 B2 D) as (E1 & E2 & E3).
    pose proof (L_vincenty4.lon_of_sc _ _ R2 E2 E3) as E4. rewrite V. do 4 f_equal.
    + rewrite <- (L_PyMath.deg_out_rad_in deg la), E1. apply L_PyMath.deg_out_rad_in.
    + rewrite <- (L_PyMath.deg_out_rad_in deg lo), E4. destruct deg; cbn [deg_out rad_in full]; [|reflexivity]. unfold tau, py_mod, degrees, radians.
      replace (lon2 * PI / 180 / (2 * PI)) with (lon2 / 360) by (field; apply PI_neq0). field. apply PI_neq0.
Qed.
(** The promised finite answer is not always given: once around a sphere is NaN. *)
Theorem C44_full_turn_is_nan : forall fuel lat1 lon1 az ell deg, ell_ok ell -> ell_a ell = ell_b ell -> lat_ok deg lat1 ->
  vreckon fuel lat1 lon1 (2 * PI * ell_a ell) az ell deg = Some (Ok None).
Proof.
  intros fuel lat1 lon1 az ell deg H E L1. destruct (L_ell.ell_pos ell H) as [Hb _]. pose proof PI_RGT_0.
  rewrite L_vincenty4.vreckon_ok by (try exact L1; nra). cbv zeta. unfold L_vincenty4.vbase.
  destruct (L_vincenty4.vk_sphere ell (rad_in deg lat1) (rad_in deg az) H E (proj1 (L_vincenty3.rad_in_bounds deg lat1) L1)) as [s1 ->]. cbv zeta. cbn [r_A].
  replace (2 * PI * ell_a ell / (ell_b ell * 1)) with (2 * PI) by (rewrite E; field; lra). rewrite L_vincenty3.no_gap.
  destruct (Rlt_dec _ 0) as [X|_]; [pose proof L_vincenty3.e12; lra|reflexivity].
Qed.
Definition unit_sphere : Ellipsoid := mkEllipsoid "unit" "" 1 1 0 0 0.
Lemma unit_sphere_ok : ell_ok (Some unit_sphere) /\ ell_a (Some unit_sphere) = ell_b (Some unit_sphere).
Proof. cbn. unfold valid_ell. cbn. repeat split; try lra; field. Qed.
Example C44_hypotheses_met : mild None /\ clear_of_poles true 45 /\ (ell_ok (Some unit_sphere) /\ ell_a (Some unit_sphere) = ell_b (Some unit_sphere)) /\
  1 / 10 ^ 12 < Rabs (1 / ell_a (Some unit_sphere) - 2 * PI).
Proof.
  split; [apply wgs84_mild|]. split; [apply C43_hypotheses_met|]. split; [apply unit_sphere_ok|]. cbn [ell_a unit_sphere semimajor_axis].
  pose proof L_vincenty.pi_gt3. rewrite Rabs_left by lra. assert (1 / 10 ^ 12 < 1) by lra. lra.
Qed.

(** ** C45: arrays *)
Theorem C45_single_element : forall lat1 lon1 lat2 lon2 ell deg,
  fst (vdist_array [(lat1, lon1, lat2, lon2)] ell deg) =
  match vdist lat1 lon1 lat2 lon2 ell deg with Ok r => Ok [r] | Raise e => Raise e end.
Proof. intros. apply (L_vincenty4.vdist_array_one (lat1, lon1, lat2, lon2)). Qed.
Theorem C45_sphere_elementwise_partial : forall pts ell deg, ell_ok ell -> ell_a ell = ell_b ell ->
  Forall (fun '(lat1, _, lat2, _) => lat_ok deg lat1 /\ lat_ok deg lat2) pts ->
  exists l, fst (vdist_array pts ell deg) = Ok l /\
    Forall2 (fun '(lat1, lon1, lat2, lon2) r => vdist lat1 lon1 lat2 lon2 ell deg = Ok r) pts l.
Proof. exact L_vincenty4.vdist_array_sphere. Qed.
Theorem C45_bad_latitude_anywhere : forall pts ell deg,
  (exists lat1 lon1 lat2 lon2, In (lat1, lon1, lat2, lon2) pts /\ ~ (lat_ok deg lat1 /\ lat_ok deg lat2)) ->
  fst (vdist_array pts ell deg) = Raise ValueError.
Proof.
  intros pts ell deg (lat1 & lon1 & lat2 & lon2 & I & H). unfold vdist_array. cbv zeta.
  match goal with |- context [if ?c then _ else _] => assert (E : c = true) end; [|rewrite E; reflexivity].
  apply Bool.orb_true_iff. rewrite !existsb_exists.
  destruct (lat_out_of_range (rad_in deg lat1)) eqn:E1.
  - left. exists (rad_in deg lat1). split; [|exact E1]. apply in_map_iff. exists (lat1, lon1, lat2, lon2). split; [reflexivity|exact I].
  - right. exists (rad_in deg lat2). split; [apply in_map_iff; exists (lat1, lon1, lat2, lon2); split; [reflexivity|exact I]|].
    destruct (lat_out_of_range (rad_in deg lat2)) eqn:E2; [reflexivity|]. exfalso. apply H. apply L_vincenty.out_of_range_false in E1, E2.
    split; apply L_vincenty3.rad_in_bounds; assumption.
Qed.
(** Refutation: on WGS-84, the pair (0,0)-(0,90) alone has distance a*pi/2; in an
    array beside a coincident pair it comes out more than 15 km short. *)
Theorem C45_coincident_neighbour_refuted : exists d0 a0 d1 a1 d az,
  fst (vdist_array [(0, 0, 0, 0); (0, 0, 0, 90)] None true) = Ok [(d0, a0); (d1, a1)] /\
  vdist 0 0 0 90 None true = Ok (d, az) /\ d1 + 15000 < d.
Proof.
  destruct L_vincenty5.coincident_lane as (d0 & d1 & a0 & a1 & E & B).
  assert (G : PI / 2 = lon_gap (rad_in true 0) (rad_in true 90)).
  { change (rad_in true 90) with (radians 90). change (rad_in true 0) with (radians 0). rewrite L_PyMath.radians_90, L_PyMath.radians_0. symmetry. apply L_vincenty5.lon_gap_0. pose proof PI_RGT_0; lra. }
  pose proof L_vincenty.pi_gt3 as P. pose proof PI_4 as P4.
  destruct (L_vincenty5.vdist_equator (PI/2) None true 0 90 I ltac:(cbn; lra) G ltac:(lra)) as (d & az & E' & B' & _).
  { cbn. assert (99 / 100 <= 635675231424518 / 100000000 / 6378137) by lra. nra. }
  exists d0, a0, d1, a1, d, az. split; [exact E|]. split; [exact E'|]. apply Rabs_le_between in B'. cbn [ell_a ell_b] in B, B'.
  assert (K : 635675231424518 / 100000000 * (1 + (6378137 ^ 2 - (635675231424518 / 100000000) ^ 2) / (635675231424518 / 100000000) ^ 2 / 4) <= 6378137 - 10600) by lra.
  assert (635675231424518 / 100000000 * (1 + (6378137 ^ 2 - (635675231424518 / 100000000) ^ 2) / (635675231424518 / 100000000) ^ 2 / 4) * (PI / 2) <= (6378137 - 10600) * (PI/2)) by (apply Rmult_le_compat_r; lra).
  lra.
Qed.
(** Refutation: a nearly antipodal pair that the scalar call handles makes an array
    call raise ValueError. *)
Theorem C45_antipodal_neighbour_refuted :
  fst (vdist_array [(0, 0, 0, 1798 / 10); (0, 0, 0, 1798 / 10)] None true) = Raise ValueError /\
  exists d az, vdist 0 0 0 (1798 / 10) None true = Ok (d, az).
Proof.
  split; [exact L_vincenty5.antipodal_lane|]. apply C43_latitude_guard. unfold lat_ok. cbn. lra.
Qed.

(** ** C46: track2 *)
Theorem C46_too_few_points : forall fuel lat1 lon1 lat2 lon2 ell npts deg, (npts < 2)%nat ->
  track2 fuel lat1 lon1 lat2 lon2 ell npts deg = Some (Raise ValueError).
Proof. intros. unfold track2. destruct (Nat.ltb_spec npts 2); [reflexivity|lia]. Qed.
Theorem C46_two_points : forall fuel lat1 lon1 lat2 lon2 ell deg,
  track2 fuel lat1 lon1 lat2 lon2 ell 2 deg = Some (Ok (Some [(lat1, lon1); (lat2, lon2)])).
Proof. reflexivity. Qed.
Lemma track2_open fuel lat1 lon1 lat2 lon2 ell npts deg : (3 <= npts)%nat ->
  track2 fuel lat1 lon1 lat2 lon2 ell npts deg =
  (if Rlt_dec (Rabs (unit_angle (dir deg lat1 lon1) (dir deg lat2 lon2) - PI)) (1 / 10 ^ 12) then Some (Raise ValueError) else
   match vdist (rad_in deg lat1) (rad_in deg lon1) (rad_in deg lat2) (rad_in deg lon2) ell false with
  | Raise e => Some (Raise e)
  | Ok (distance, azimuth) =>
      match vreckon_ranges fuel (rad_in deg lat1) (rad_in deg lon1) (linspace 0 distance npts) azimuth ell with
      | None => None
      | Some (Raise e) => Some (Raise e)
      | Some (Ok None) => Some (Ok None)
      | Some (Ok (Some l)) => Some (Ok (Some (map (fun '(la, lo) => (deg_out deg la, deg_out deg lo)) l)))
      end
  end).
Proof.
  intros H. unfold track2. destruct (Nat.ltb_spec npts 2); [lia|]. destruct (Nat.eqb_spec npts 2); [lia|].
  rewrite L_vincenty5.gc_arclen_angle. unfold dir. change as_rad with rad_in. reflexivity.
Qed.
Theorem C46_antipodal : forall fuel lat1 lon1 lat2 lon2 ell npts deg, (3 <= npts)%nat ->
  dir deg lat2 lon2 = vopp (dir deg lat1 lon1) -> track2 fuel lat1 lon1 lat2 lon2 ell npts deg = Some (Raise ValueError).
Proof.
  intros fuel lat1 lon1 lat2 lon2 ell npts deg Hn E. rewrite (track2_open _ _ _ _ _ _ _ _ Hn).
  assert (A : unit_angle (dir deg lat1 lon1) (dir deg lat2 lon2) = PI) by (apply L_nvector.angle_PI; [apply L_ecef.unit_normal_unit|apply L_ecef.unit_normal_unit|exact E]).
  rewrite A, L_vincenty3.no_gap. destruct (Rlt_dec 0 _) as [_|N]; [reflexivity|]. exfalso. apply N, L_vincenty3.e12.
Qed.
(** npts points, all with legal coordinates, the first being the start point. *)
Theorem C46_samples : forall fuel lat1 lon1 lat2 lon2 ell npts deg, mild ell -> (71 <= fuel)%nat -> (3 <= npts)%nat ->
  clear_of_poles deg lat1 -> lat_ok deg lat2 ->
  1 / 10 ^ 12 <= Rabs (unit_angle (dir deg lat1 lon1) (dir deg lat2 lon2) - PI) ->
  exists l, track2 fuel lat1 lon1 lat2 lon2 ell npts deg = Some (Ok (Some ((lat1, py_mod lon1 (full deg)) :: l))) /\
    S (List.length l) = npts /\ Forall (fun '(lat, lon) => lat_ok deg lat /\ 0 <= lon < full deg) l.
Proof.
  intros fuel lat1 lon1 lat2 lon2 ell npts deg Hm Hf Hn C L2 A. rewrite (track2_open _ _ _ _ _ _ _ _ Hn). unfold clear_of_poles in C. change as_rad with rad_in in *. pose proof L_vincenty.ten10 as T.
  destruct (Rlt_dec _ _); [lra|]. assert (B1 : - (PI/2) <= rad_in deg lat1 <= PI/2) by (apply Rabs_le_between in C; lra).
  pose proof (proj1 (L_vincenty3.rad_in_bounds deg lat2) L2) as B2.
  destruct (C43_latitude_guard (rad_in deg lat1) (rad_in deg lon1) (rad_in deg lat2) (rad_in deg lon2) ell false) as [V _].
  destruct (V (conj B1 B2)) as (d & az & E). rewrite E. pose proof (C43_distance_nonnegative _ _ _ _ _ _ _ _ Hm E) as D0.
  rewrite (L_vincenty5.linspace_cons d npts) by lia. set (rs := map _ _). destruct Hm as [He H2].
  destruct (L_vincenty5.ranges_total fuel (rad_in deg lat1) (rad_in deg lon1) rs az ell He H2 Hf) as (l & R1 & Len & Fl).
  - apply List.Forall_forall. intros r Hr. apply (L_vincenty5.linspace_in d npts r D0 ltac:(lia)). rewrite L_vincenty5.linspace_cons by lia. now right.
  - exact B1.
  - rewrite R1. cbn [map]. rewrite (L_vincenty.nudge_id _ C), L_PyMath.deg_out_rad_in. exists (map (fun '(la, lo) => (deg_out deg la, deg_out deg lo)) l). split; [|split].
    + do 5 f_equal. destruct deg; cbn [deg_out rad_in full]; [|reflexivity]. unfold tau, py_mod, degrees, radians.
      replace (lon1 * PI / 180 / (2 * PI)) with (lon1 / 360) by (field; apply PI_neq0). field. apply PI_neq0.
    + rewrite map_length, Len. unfold rs. rewrite map_length, seq_length. lia.
    + apply List.Forall_map. apply List.Forall_inv_tail in Fl. eapply List.Forall_impl; [|exact Fl]. intros [la lo] [Q1 Q2]. split; [|now apply L_vincenty3.deg_out_range].
      unfold lat_ok. rewrite <- L_aer.deg_out_mquarter, <- L_aer.deg_out_quarter. split; apply L_aer.deg_out_le; lra.
Qed.
(** On a sphere the points are equally spaced on the shorter great-circle arc, from
    the start point to the end point. *)
Theorem C46_sphere_equally_spaced : forall fuel lat1 lon1 lat2 lon2 ell npts deg, ell_ok ell -> ell_a ell = ell_b ell -> (1 <= fuel)%nat -> (3 <= npts)%nat ->
  clear_of_poles deg lat1 -> clear_of_poles deg lat2 ->
  let th := unit_angle (dir deg lat1 lon1) (dir deg lat2 lon2) in
  1 / 10 ^ 12 <= Rabs (th - PI) ->
  exists l, track2 fuel lat1 lon1 lat2 lon2 ell npts deg = Some (Ok (Some l)) /\ List.length l = npts /\
    forall i, (i < npts)%nat -> exists lat lon, nth_error l i = Some (lat, lon) /\
      unit_angle (dir deg lat1 lon1) (dir deg lat lon) = INR i / INR (npts - 1) * th /\
      unit_angle (dir deg lat lon) (dir deg lat2 lon2) = (1 - INR i / INR (npts - 1)) * th.
Proof.
  intros fuel lat1 lon1 lat2 lon2 ell npts deg H E Hf Hn C1 C2 th A. rewrite (track2_open _ _ _ _ _ _ _ _ Hn). fold th. destruct (Rlt_dec _ _); [lra|].
  unfold clear_of_poles in C1, C2. change as_rad with rad_in in *. pose proof L_vincenty.ten10 as T. destruct (L_ell.ell_pos ell H) as [Hb _].
  assert (B1 : - (PI/2) <= rad_in deg lat1 <= PI/2) by (apply Rabs_le_between in C1; lra). assert (B2 : - (PI/2) <= rad_in deg lat2 <= PI/2) by (apply Rabs_le_between in C2; lra).
  rewrite (L_vincenty3.vdist_sphere_val (rad_in deg lat1) (rad_in deg lon1) (rad_in deg lat2) (rad_in deg lon2) ell false H E B1 B2).
  cbn [rad_in deg_out]. rewrite !L_vincenty.nudge_id by assumption.
  assert (Eth : th = unit_angle (unit_normal (rad_in deg lat1) (rad_in deg lon1)) (unit_normal (rad_in deg lat2) (rad_in deg lon2))) by reflexivity.
  pose proof (L_ecef.unit_normal_unit (rad_in deg lat1) (rad_in deg lon1)) as I1. pose proof (L_ecef.unit_normal_unit (rad_in deg lat2) (rad_in deg lon2)) as I2.
  pose proof (L_nvector.angle_range _ _ I1 I2) as AR.
  pose proof (L_vincenty4.gc_move_target (rad_in deg lat1) (rad_in deg lon1) (rad_in deg lat2) (rad_in deg lon2)) as G2.
  rewrite <- Eth in *. clearbody th. clear Eth. rename th into t. unfold dir. change as_rad with rad_in in *.
  assert (D0 : 0 <= ell_a ell * t) by (apply Rmult_le_pos; lra).
  rewrite (L_vincenty5.linspace_cons (ell_a ell * t) npts) by lia. set (rs := map _ _).
  destruct (L_vincenty5.ranges_sphere fuel (rad_in deg lat1) (rad_in deg lon1) rs
     (L_vincenty3.gc_bearing (rad_in deg lat1) (rad_in deg lon1) (rad_in deg lat2) (rad_in deg lon2)) ell H E Hf) as (l & R1 & Fl).
  - apply List.Forall_forall. intros r Hr. apply (L_vincenty5.linspace_in (ell_a ell * t) npts r D0 ltac:(lia)). rewrite L_vincenty5.linspace_cons by lia. now right.
  - exact B1.
  - rewrite R1. unfold rs in Fl. rewrite <- (L_vincenty5.linspace_cons (ell_a ell * t) npts) in Fl by lia.
    eexists. split; [reflexivity|]. split.
    { rewrite map_length. rewrite <- (L_vincenty5.linspace_len (ell_a ell * t) npts). symmetry. eapply L_vincenty5.F2_length; exact Fl. }
    intros i Hi. pose proof (L_vincenty5.linspace_nth (ell_a ell * t) npts i ltac:(lia) Hi) as Ni.
    rewrite nth_error_map. destruct (nth_error l i) as [[la lo]|] eqn:El.
    2: { exfalso. apply nth_error_None in El. pose proof (L_vincenty5.F2_length _ _ _ Fl) as LL. rewrite L_vincenty5.linspace_len in LL. lia. }
    exists (deg_out deg la), (deg_out deg lo). split; [reflexivity|]. change as_rad with rad_in. rewrite !L_PyMath.rad_in_deg_out.
    assert (Ha : 0 < ell_a ell) by lra. assert (Hn1 : 0 < INR (npts - 1)) by (apply lt_0_INR; lia).
    assert (K : unit_normal la lo = L_vincenty4.gc_move (rad_in deg lat1) (rad_in deg lon1) (L_vincenty3.gc_bearing (rad_in deg lat1) (rad_in deg lon1) (rad_in deg lat2) (rad_in deg lon2)) (INR i / INR (npts - 1) * t)).
    { clear - Fl Ni El C1 Ha Hn1. set (q := INR i / INR (npts - 1)) in *. clearbody q. revert i Ni El. generalize dependent l. generalize (linspace 0 (ell_a ell * t) npts). intros xs l F.
      induction F as [|x y xs l P F IH]; intros i Ni El; [destruct i; discriminate|].
      destruct i as [|i]; [|now apply (IH i)].
      cbn in Ni, El. injection El as ->. injection Ni as ->. destruct P as (P & _). rewrite P, L_vincenty.nudge_id by exact C1. f_equal. field. lra. }
    assert (QR : 0 <= INR i / INR (npts - 1) <= 1).
    { split; [apply Rmult_le_pos; [apply pos_INR|left; apply Rinv_0_lt_compat; exact Hn1]|]. apply Rmult_le_reg_r with (INR (npts - 1)); [exact Hn1|].
      unfold Rdiv. rewrite Rmult_assoc, Rinv_l, Rmult_1_r, Rmult_1_l by lra. apply le_INR. lia. }
    set (q := INR i / INR (npts - 1)) in *. rewrite K.
    set (az := L_vincenty3.gc_bearing _ _ _ _) in *. split.
    + unfold unit_angle. rewrite <- (L_vincenty5.gc_move_0 (rad_in deg lat1) (rad_in deg lon1) az), L_vincenty5.gc_move_dot. rewrite Rminus_0_r. apply acos_cos. nra.
    + unfold unit_angle. rewrite <- G2, L_vincenty5.gc_move_dot. replace (t - q * t) with ((1 - q) * t) by ring. apply acos_cos. nra.
Qed.
Example C46_hypotheses_met : mild None /\ clear_of_poles true 45 /\ lat_ok true 45 /\
  1 / 10 ^ 12 <= Rabs (unit_angle (dir true 45 0) (dir true 45 0) - PI).
Proof.
  split; [apply wgs84_mild|]. split; [apply C43_hypotheses_met|]. split; [unfold lat_ok; cbn; lra|].
  rewrite (proj2 (L_nvector.angle_0 (dir true 45 0) (dir true 45 0) (L_ecef.unit_normal_unit _ _) (L_ecef.unit_normal_unit _ _)) eq_refl).
  pose proof L_vincenty.pi_gt3. rewrite Rabs_left by lra. assert (1 / 10 ^ 12 < 1) by lra. lra.
Qed.
(** Finding: with npts = 2 the antipodal check is skipped. *)
Theorem C46_two_points_skip_antipodal_check : forall fuel ell,
  dir true 0 180 = vopp (dir true 0 0) /\ track2 fuel 0 0 0 180 ell 2 true = Some (Ok (Some [(0, 0); (0, 180)])).
Proof.
  intros. split; [|reflexivity]. unfold dir, unit_normal, vopp. cbn [as_rad]. replace (0 * PI / 180) with 0 by field. replace (180 * PI / 180) with PI by field.
  rewrite cos_0, sin_0, cos_PI, sin_PI. apply f_equal2; [apply f_equal2|]; ring.
Qed.

(** ** C66: Euler's radius of curvature *)
(** It is Euler's combination of the two principal radii at the middle latitude in
    the direction of the geodesic, lies between them, and degrees and radians agree. *)
Theorem C66_euler_radius : forall lat1 lon1 lat2 lon2 ell deg r, ell_ok ell ->
  euler lat1 lon1 lat2 lon2 ell deg = Ok r ->
  let mid := (as_rad deg lat1 + as_rad deg lat2) / 2 in
  exists d az, vdist (as_rad deg lat1 * (180 / PI)) (as_rad deg lon1 * (180 / PI)) (as_rad deg lat2 * (180 / PI)) (as_rad deg lon2 * (180 / PI)) ell true = Ok (d, az) /\
  1 / r = cos (as_rad true az) ^ 2 / meridian mid ell false + sin (as_rad true az) ^ 2 / transverse mid ell false /\
  meridian mid ell false <= r <= transverse mid ell false.
Proof.
  intros lat1 lon1 lat2 lon2 ell deg r He E mid. destruct (L_vincenty5.euler_val _ _ _ _ _ _ _ E) as (d & az & V & R1). cbv zeta in R1.
  exists d, az. assert (DO : forall x, deg_out true x = x * (180 / PI)) by (intros; cbn; unfold degrees; field; apply PI_neq0).
  split; [rewrite <- !DO; exact V|]. fold mid in R1.
  assert (M : meridian (deg_out true mid) ell true = meridian mid ell false) by (unfold meridian; rewrite (L_PyMath.rad_in_deg_out true mid); reflexivity).
  assert (N : transverse (deg_out true mid) ell true = transverse mid ell false) by (unfold transverse; rewrite (L_PyMath.rad_in_deg_out true mid); reflexivity).
  rewrite M, N in R1. change (as_rad true az) with (radians az).
  pose proof (L_rcurve.meridian_pos ell He mid false) as Pm. pose proof (L_rcurve.transverse_pos ell He mid false) as Pt. pose proof (L_rcurve.meridian_le_transverse ell He mid false) as Le.
  set (m := meridian mid ell false) in *. set (t := transverse mid ell false) in *. pose proof (L_PyMath.sc1 (radians az)) as S. set (s := sin (radians az)) in *. set (c := cos (radians az)) in *.
  assert (D : 0 < m * s ^ 2 + t * c ^ 2) by nra. assert (Dm : m <= m * s ^ 2 + t * c ^ 2) by nra. assert (Dt : m * s ^ 2 + t * c ^ 2 <= t) by nra.
  split.
  - rewrite R1. field. repeat split; lra.
  - rewrite R1. split; (apply Rmult_le_reg_r with (m * s ^ 2 + t * c ^ 2); [exact D|]); unfold Rdiv; rewrite Rmult_assoc, Rinv_l, Rmult_1_r by lra; nra.
Qed.
Theorem C66_guard : forall lat1 lon1 lat2 lon2 ell deg,
  (lat_ok deg lat1 /\ lat_ok deg lat2 -> exists r, euler lat1 lon1 lat2 lon2 ell deg = Ok r) /\
  (~ (lat_ok deg lat1 /\ lat_ok deg lat2) -> euler lat1 lon1 lat2 lon2 ell deg = Raise ValueError).
Proof.
  intros. set (D := fun x => if deg then x else degrees x).
  assert (Q : forall lat, lat_ok true (D lat) <-> lat_ok deg lat).
  { intros lat. unfold lat_ok. rewrite !L_vincenty3.rad_in_bounds. unfold D. destruct deg; [reflexivity|]. change (rad_in true (degrees lat)) with (radians (degrees lat)). rewrite L_PyMath.radians_degrees. reflexivity. }
  destruct (C43_latitude_guard (D lat1) (D lon1) (D lat2) (D lon2) ell true) as [G1 G2]. rewrite !Q in G1, G2.
  unfold euler. cbv zeta. unfold D in *. split; intros H.
  - destruct (G1 H) as (d & az & V). rewrite V. cbn [bind]. eauto.
  - rewrite (G2 H). reflexivity.
Qed.
Theorem C66_degrees_radians_agree : forall lat1 lon1 lat2 lon2 ell,
  euler (as_rad true lat1) (as_rad true lon1) (as_rad true lat2) (as_rad true lon2) ell false = euler lat1 lon1 lat2 lon2 ell true.
Proof.
  intros. unfold euler. cbv zeta. change as_rad with rad_in. cbn [rad_in]. rewrite !L_PyMath.degrees_radians. reflexivity.
Qed.
Example C66_hypotheses_met : exists r, euler 40 0 50 10 None true = Ok r.
Proof. apply C66_guard. unfold lat_ok. cbn. lra. Qed.
