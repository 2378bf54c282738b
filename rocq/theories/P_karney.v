(** Properties C46 (geodesic_line), C47 (angles), C48 (series evaluation), C49
    (geodesic_direct), C50 (geodesic_area), C67 (symmetries of geodesic_inverse) and
    C68 (geodesic_inverse on spheres and along the equator). *)
From Coq Require Import Lia Psatz.
From Verif Require Import PyMath M_ellipsoid M_karney Spec.
From Verif Require Import P_vincenty.
From Verif Require L_PyMath L_ecef L_nvector L_aer L_ell L_vincenty L_vincenty3 L_vincenty4 L_karney L_karney2 L_karney3 L_karney4 L_karney5 L_karney6 L_karney7 L_karney8 L_karney9.
Open Scope R_scope.

(** ** Specification *)
(** Farther than the clamp of the code (about 0.1 m on the Earth) from both poles. *)
Definition off_pole (deg : bool) (lat : R) : Prop := lat_ok deg lat /\ / 2 ^ 26 <= cos (as_rad deg lat).
(** The representative of an angle in (-half, half]. *)
Definition wrapped (deg : bool) (x y : R) : Prop := - half deg < y <= half deg /\ exists k : Z, y = x + IZR k * full deg.
(** Unit tangent of the great circle after the arc [s]. *)
Definition arc_heading (deg : bool) (lat lon az s : R) : vec3 :=
  let phi := as_rad deg lat in let lam := as_rad deg lon in let a := as_rad deg az in
  vadd (vscale (- sin s) (unit_normal phi lam))
       (vscale (cos s) (vadd (vscale (cos a) (north_axis phi lam)) (vscale (sin a) (east_axis phi lam)))).
(** The horizontal unit vector at a point with azimuth [az]. *)
Definition heading (deg : bool) (lat lon az : R) : vec3 :=
  let phi := as_rad deg lat in let lam := as_rad deg lon in let a := as_rad deg az in
  vadd (vscale (cos a) (north_axis phi lam)) (vscale (sin a) (east_axis phi lam)).

(** ** Both angle units *)
Definition to_deg (deg : bool) (x : R) : R := if deg then x else degrees x.
Definition of_deg (deg : bool) (x : R) : R := if deg then x else radians x.
Lemma of_to deg x : of_deg deg (to_deg deg x) = x.
Proof. destruct deg; [reflexivity|apply L_karney3.rad_deg]. Qed.
Lemma to_of deg x : to_deg deg (of_deg deg x) = x.
Proof. destruct deg; [reflexivity|apply L_karney3.deg_rad]. Qed.
Lemma to_rad deg x : radians (to_deg deg x) = as_rad deg x.
Proof. change as_rad with rad_in. destruct deg; [reflexivity|apply L_karney3.rad_deg]. Qed.
Lemma of_rad deg x : as_rad deg (of_deg deg x) = radians x.
Proof. rewrite <- to_rad, to_of. reflexivity. Qed.
Lemma to_range deg x : lat_ok deg x -> -90 <= to_deg deg x <= 90.
Proof.
  unfold lat_ok. destruct deg; cbn [quarter to_deg]; [lra|]. intros H. apply L_karney4.degrees_range in H. rewrite L_karney4.degrees_PI2 in H.
  replace (degrees (- (PI/2))) with (-90) in H by (unfold degrees; field; apply PI_neq0). exact H.
Qed.
Lemma of_full deg x (k : Z) : of_deg deg (x + IZR k * 360) = of_deg deg x + IZR k * full deg.
Proof. destruct deg; cbn [of_deg full]; [reflexivity|unfold radians; field]. Qed.
Lemma of_half deg x : -180 < x <= 180 -> - half deg < of_deg deg x <= half deg.
Proof. destruct deg; cbn [of_deg half]; [lra|]. pose proof PI_RGT_0 as P. unfold radians. intros H. split; nra. Qed.
Lemma of_quarter deg x : -90 <= x <= 90 -> - quarter deg <= of_deg deg x <= quarter deg.
Proof. destruct deg; cbn [of_deg quarter]; [lra|]. pose proof PI_RGT_0 as P. unfold radians. intros H. split; nra. Qed.
Lemma of_wrap deg x : wrapped deg x (of_deg deg (AngNormalize (to_deg deg x))).
Proof.
  split; [apply of_half, L_karney.AngNormalize_range|]. destruct (L_karney.AngNormalize_congr (to_deg deg x)) as [k ->].
  exists k. now rewrite of_full, of_to.
Qed.
Lemma wrapped_unique deg x y z : wrapped deg x y -> wrapped deg x z -> y = z.
Proof.
  intros [A [k K]] [B [m M]]. pose proof PI_RGT_0 as P.
  assert (FH : full deg = 2 * half deg) by (destruct deg; cbn; lra). assert (HP : 0 < half deg) by (destruct deg; cbn; lra).
  assert (E : y = z + IZR (k - m) * (2 * half deg)) by (rewrite minus_IZR, K, M, FH; ring).
  assert (-1 < IZR (k - m) < 1) by (split; nra). assert (k - m = 0)%Z as Z0.
  { assert (-1 < k - m < 1)%Z by (split; apply lt_IZR; lra). lia. }
  rewrite Z0 in E. simpl in E. lra.
Qed.
Lemma direct_open lat1 lon1 azi1 s ell deg : geodesic_direct lat1 lon1 azi1 s ell deg =
  let '(a, b, c) := Direct (get_geodesic ell) (to_deg deg lat1) (to_deg deg lon1) (to_deg deg azi1) s in (of_deg deg a, of_deg deg b, of_deg deg c).
Proof. unfold geodesic_direct. destruct deg; cbn [to_deg of_deg]; destruct (Direct _ _ _ _ _) as [[a b] c]; reflexivity. Qed.
Lemma inverse_open lat1 lon1 lat2 lon2 ell deg : geodesic_inverse lat1 lon1 lat2 lon2 ell deg =
  let '(a, b, c) := Inverse (get_geodesic ell) (to_deg deg lat1) (to_deg deg lon1) (to_deg deg lat2) (to_deg deg lon2) in (a, of_deg deg b, of_deg deg c).
Proof. unfold geodesic_inverse. destruct deg; cbn [to_deg of_deg]; destruct (Inverse _ _ _ _ _) as [[a b] c]; reflexivity. Qed.

(** ** C47: angles *)
Theorem C47_direct_ranges : forall lat1 lon1 azi1 s ell deg lat2 lon2 azi2, ell_ok ell ->
  geodesic_direct lat1 lon1 azi1 s ell deg = (lat2, lon2, azi2) ->
  lat_ok deg lat2 /\ - half deg < lon2 <= half deg /\ - half deg < azi2 <= half deg.
Proof.
  intros lat1 lon1 azi1 s ell deg lat2 lon2 azi2 H E. rewrite direct_open in E. destruct (L_karney5.get_oblate ell H) as [O _].
  pose proof (L_karney5.oblate_f1 _ O) as F.
  pose proof (L_karney4.Direct_range (get_geodesic ell) (to_deg deg lat1) (to_deg deg lon1) (to_deg deg azi1) s ltac:(lra)) as Q.
  destruct (Direct _ _ _ _ _) as [[a b] c]. injection E as <- <- <-. destruct Q as (Q1 & Q2 & Q3).
  split; [now apply of_quarter|]. split; now apply of_half.
Qed.
Theorem C47_inverse_azimuth_ranges : forall lat1 lon1 lat2 lon2 ell deg d azi1 azi2, lat_ok deg lat1 ->
  geodesic_inverse lat1 lon1 lat2 lon2 ell deg = (d, azi1, azi2) ->
  - half deg < azi1 <= half deg /\ - half deg < azi2 <= half deg.
Proof.
  intros lat1 lon1 lat2 lon2 ell deg d azi1 azi2 H E. rewrite inverse_open, L_karney6.Inverse_eq in E by now apply to_range. cbv zeta in E.
  destruct (Rlt_dec _ _) in E; destruct (L_karney6.canon _ _ _ _) as [[s [x1 y1]] [x2 y2]]; unfold L_karney6.out in E; injection E as _ <- <-;
  split; apply of_half, L_karney4.atan2d_range.
Qed.
(** The start longitude only turns the answer: rotating it by [r] and any number of
    whole turns rotates the end longitude by [r], again reduced to (-half, half]. *)
Theorem C47_direct_longitude_equivariant : forall lat1 lon1 azi1 s ell deg lat2 lon2 azi2 r (k : Z),
  geodesic_direct lat1 lon1 azi1 s ell deg = (lat2, lon2, azi2) ->
  exists lon2', geodesic_direct lat1 (lon1 + r + IZR k * full deg) azi1 s ell deg = (lat2, lon2', azi2) /\ wrapped deg (lon2 + r) lon2'.
Proof.
  intros lat1 lon1 azi1 s ell deg lat2 lon2 azi2 r k E. rewrite direct_open in *.
  replace (to_deg deg (lon1 + r + IZR k * full deg)) with (to_deg deg lon1 + to_deg deg r + IZR k * 360).
  2: { destruct deg; cbn [to_deg full]; [reflexivity|unfold degrees; field; apply PI_neq0]. }
  pose proof (L_karney4.Direct_lon (get_geodesic ell) (to_deg deg lat1) (to_deg deg lon1) (to_deg deg azi1) s (to_deg deg r) k) as Q.
  destruct (Direct _ _ (to_deg deg lon1) _ _) as [[a b] c]. rewrite Q. injection E as <- <- <-. eexists. split; [reflexivity|].
  replace (b + to_deg deg r) with (to_deg deg (of_deg deg b + r)); [apply of_wrap|].
  destruct deg; cbn [to_deg of_deg]; [reflexivity|]. rewrite L_karney.degrees_plus, L_karney3.deg_rad. reflexivity.
Qed.
(** The azimuth argument only matters modulo whole turns. *)
Theorem C47_direct_azimuth_periodic : forall lat1 lon1 azi1 s ell deg (k : Z),
  geodesic_direct lat1 lon1 (azi1 + IZR k * full deg) s ell deg = geodesic_direct lat1 lon1 azi1 s ell deg.
Proof.
  intros. rewrite !direct_open. replace (to_deg deg (azi1 + IZR k * full deg)) with (to_deg deg azi1 + IZR k * 360).
  2: { destruct deg; cbn [to_deg full]; [reflexivity|unfold degrees; field; apply PI_neq0]. }
  unfold Direct. rewrite L_karney.AngNormalize_shift. reflexivity.
Qed.
(** The reduction helpers themselves. *)
Theorem C47_normalize : forall x, wrapped true x (AngNormalize x).
Proof. intros x. exact (of_wrap true x). Qed.
Theorem C47_difference : forall x y, exists d, AngDiff x y = (d, 0) /\ wrapped true (y - x) d.
Proof. intros. exists (AngNormalize (y - x)). split; [apply L_karney.AngDiff_eq|apply C47_normalize]. Qed.
Theorem C47_degree_sine_cosine : forall x, sincosd x = (sin (x * PI / 180), cos (x * PI / 180)).
Proof. intros. rewrite L_karney.sincosd_eq. unfold radians. replace (x * (PI / 180)) with (x * PI / 180) by field. reflexivity. Qed.
Theorem C47_degree_arctangent : forall y x, atan2d y x = atan2 y x * 180 / PI.
Proof. intros. rewrite L_karney.atan2d_eq. unfold degrees. field. apply PI_neq0. Qed.
Theorem C47_rounding_and_error_free_sum_are_neutral : forall x y, AngRound x = x /\ sum_error x y = (x + y, 0).
Proof. intros. split; [apply L_karney.AngRound_id|apply L_karney.sum_error_exact]. Qed.
Example C47_example : AngNormalize 540 = 180 /\ AngNormalize (-180) = 180 /\ AngNormalize (-190) = 170.
Proof.
  repeat split; apply wrapped_unique with (deg := true) (1 := C47_normalize _); (split; [cbn [half]; lra|]).
  - exists (-1)%Z. simpl. lra. - exists 1%Z. simpl. lra. - exists 1%Z. simpl. lra.
Qed.

(** ** C48: series evaluation *)
(** c 1 * f 1 + ... + c n * f n *)
Fixpoint series_sum (n : nat) (f : nat -> R) : R := match n with O => 0 | S k => series_sum k f + f (S k) end.
Theorem C48_sine_series : forall n c t, SinCosSeries true (sin t) (cos t) c n = series_sum n (fun k => c k * sin (2 * INR k * t)).
Proof. intros. rewrite L_karney.sin_series. induction n as [|n IH]; [reflexivity|]. cbn. now rewrite IH. Qed.
Theorem C48_cosine_series : forall n c t, SinCosSeries false (sin t) (cos t) c n = series_sum n (fun k => c k * cos ((2 * INR k - 1) * t)).
Proof. intros. rewrite L_karney.cos_series. induction n as [|n IH]; [reflexivity|]. cbn. now rewrite IH. Qed.
Theorem C48_horner : forall N p s x, polyval N p s x = sum_f_R0 (fun j => p (s + j)%nat * x ^ (N - j)) N.
Proof. exact L_karney.polyval_eq. Qed.
Example C48_example : forall t, SinCosSeries true (sin t) (cos t) (fun k => INR k) 3 = 1 * sin (2 * t) + 2 * sin (4 * t) + 3 * sin (6 * t).
Proof.
  intros. rewrite C48_sine_series. cbn [series_sum]. replace (INR 1) with 1 by (simpl; ring). replace (INR 2) with 2 by (simpl; ring). replace (INR 3) with 3 by (simpl; ring).
  replace (2 * 1 * t) with (2 * t) by ring. replace (2 * 2 * t) with (4 * t) by ring. replace (2 * 3 * t) with (6 * t) by ring. ring.
Qed.

(** ** C49: geodesic_direct *)
Lemma off_pole_deg deg lat : off_pole deg lat -> -90 < to_deg deg lat < 90 /\ k_tiny <= cos (radians (to_deg deg lat)).
Proof.
  intros [H T]. pose proof (to_range deg lat H) as B. rewrite <- to_rad in T. rewrite L_karney2.tiny_eq. split; [|exact T].
  assert (P26 : 0 < / 2 ^ 26) by (apply Rinv_0_lt_compat, pow_lt; lra). pose proof PI_RGT_0.
  assert (N1 : to_deg deg lat <> 90). { intros E. rewrite E in T. replace (radians 90) with (PI/2) in T by (unfold radians; field). rewrite cos_PI2 in T. lra. }
  assert (N2 : to_deg deg lat <> -90). { intros E. rewrite E in T. replace (radians (-90)) with (- (PI/2)) in T by (unfold radians; field). rewrite cos_neg, cos_PI2 in T. lra. }
  lra.
Qed.
(** Great-circle motion on a sphere: end point and final course. *)
Theorem C49_sphere_partial : forall lat1 lon1 azi1 s ell deg lat2 lon2 azi2, ell_ok ell -> ell_a ell = ell_b ell -> off_pole deg lat1 ->
  (forall z, arc_end deg lat1 lon1 azi1 (s / ell_a ell) <> (0, 0, z)) ->
  geodesic_direct lat1 lon1 azi1 s ell deg = (lat2, lon2, azi2) ->
  dir deg lat2 lon2 = arc_end deg lat1 lon1 azi1 (s / ell_a ell) /\
  heading deg lat2 lon2 azi2 = arc_heading deg lat1 lon1 azi1 (s / ell_a ell).
Proof.
  intros lat1 lon1 azi1 s ell deg lat2 lon2 azi2 H E Hp NP D. rewrite direct_open in D. destruct (L_karney2.get_spherical ell H E) as [Sp Eb].
  destruct (off_pole_deg _ _ Hp) as [_ T].
  pose proof (L_karney3.Direct_sphere (get_geodesic ell) (to_deg deg lat1) (to_deg deg lon1) (to_deg deg azi1) s Sp T) as Q. cbv zeta in Q. rewrite Eb, !to_rad in Q.
  specialize (Q NP). destruct (Direct _ _ _ _ _) as [[a b] c]. injection D as <- <- <-. unfold dir, heading. rewrite !of_rad. destruct Q as [Q1 Q2]. split; [exact Q1|].
  symmetry. exact Q2.
Qed.
(** Distance zero.  Exact on spheres (off the poles), from the equator, and due east
    or west, of any ellipsoid. *)
Theorem C49_zero_distance_sphere : forall lat1 lon1 azi1 ell deg, ell_ok ell -> ell_a ell = ell_b ell -> off_pole deg lat1 ->
  exists lon2 azi2, geodesic_direct lat1 lon1 azi1 0 ell deg = (lat1, lon2, azi2) /\ wrapped deg lon1 lon2 /\ wrapped deg azi1 azi2.
Proof.
  intros lat1 lon1 azi1 ell deg H E Hp. rewrite direct_open. destruct (L_karney2.get_spherical ell H E) as [Sp Eb]. destruct (off_pole_deg _ _ Hp) as [B T].
  rewrite (L_karney5.Direct_zero_sphere _ _ _ _ Sp B T). eexists _, _. rewrite of_to. split; [reflexivity|]. split; apply of_wrap.
Qed.
Theorem C49_zero_distance_equator : forall lon1 azi1 ell deg, ell_ok ell ->
  exists lon2 azi2, geodesic_direct 0 lon1 azi1 0 ell deg = (0, lon2, azi2) /\ wrapped deg lon1 lon2 /\ wrapped deg azi1 azi2.
Proof.
  intros lon1 azi1 ell deg H. rewrite direct_open. destruct (L_karney5.get_oblate ell H) as [O _].
  replace (to_deg deg 0) with 0 by (destruct deg; cbn; [reflexivity|unfold degrees, Rdiv; ring]).
  rewrite (L_karney5.Direct_zero_equator _ _ _ O). eexists _, _. split; [|split; apply of_wrap].
  replace (of_deg deg 0) with 0 by (destruct deg; cbn; [reflexivity|unfold radians, Rdiv; ring]). reflexivity.
Qed.
Theorem C49_zero_distance_east_west : forall lat1 lon1 azi1 ell deg, ell_ok ell -> off_pole deg lat1 -> cos (as_rad deg azi1) = 0 ->
  exists lon2 azi2, geodesic_direct lat1 lon1 azi1 0 ell deg = (lat1, lon2, azi2) /\ wrapped deg lon1 lon2 /\ wrapped deg azi1 azi2.
Proof.
  intros lat1 lon1 azi1 ell deg H Hp C. rewrite direct_open. destruct (L_karney5.get_oblate ell H) as [O _]. destruct (off_pole_deg _ _ Hp) as [B T].
  rewrite <- to_rad in C. rewrite (L_karney5.Direct_zero_eastwest _ _ _ _ O B T C). eexists _, _. rewrite of_to. split; [reflexivity|]. split; apply of_wrap.
Qed.
(** At the pole it is not the identity: on every sphere, going nowhere from latitude 90
    ends more than 2^-27 radii (5 cm on the Earth) away. *)
Theorem C49_zero_distance_pole_refuted : forall lon1 ell, ell_ok ell -> ell_a ell = ell_b ell ->
  exists lat2 lon2 azi2, geodesic_direct 90 lon1 0 0 ell true = (lat2, lon2, azi2) /\ lat2 < 90 /\
    / 2 ^ 27 < as_rad true 90 - as_rad true lat2.
Proof.
  intros lon1 ell H E. destruct (L_karney2.get_spherical ell H E) as [Sp _]. pose proof (L_karney5.Direct_zero_pole _ lon1 Sp) as Q.
  unfold geodesic_direct. destruct (Direct _ _ _ _ _) as [[a b] c]. cbn [fst] in Q. exists a, b, c. split; [reflexivity|].
  assert (A : atan (2 ^ 26) = PI / 2 - atan (/ 2 ^ 26)).
  { replace (2 ^ 26) with (/ / 2 ^ 26) at 1 by apply Rinv_inv. rewrite atan_inv; [reflexivity|]. apply Rinv_0_lt_compat, pow_lt. lra. }
  assert (P26 : 0 < / 2 ^ 26) by (apply Rinv_0_lt_compat, pow_lt; lra).
  assert (L : / 2 ^ 27 < atan (/ 2 ^ 26)).
  { apply Rnot_le_lt. intros X. assert (T : tan (atan (/ 2 ^ 26)) = / 2 ^ 26) by apply tan_atan.
    set (t := atan (/ 2 ^ 26)) in *. assert (t0 : 0 < t) by (unfold t; rewrite <- atan_0; apply atan_increasing; exact P26).
    assert (E27 : / 2 ^ 27 = / 2 ^ 26 / 2) by (replace (2 ^ 27) with (2 ^ 26 * 2) by (simpl; ring); rewrite Rinv_mult; reflexivity).
    assert (S26 : / 2 ^ 26 <= 1 / 2). { rewrite <- L_karney2.tiny_eq. apply L_karney9.tiny_half. }
    assert (ts : sin t <= t) by (left; apply sin_lt_x; exact t0).
    assert (tc : 1 / 2 < cos t).
    { rewrite <- cos_PI3. pose proof L_vincenty.pi_gt3. apply cos_decreasing_1; lra. }
    unfold tan in T. assert (sin t = / 2 ^ 26 * cos t) by (rewrite <- T; field; lra). nra. }
  rewrite Q, A. split.
  - assert (DA : 0 < degrees (atan (/ 2 ^ 26))). { unfold degrees. pose proof PI_RGT_0. apply Rdiv_lt_0_compat; [|lra]. assert (0 < / 2 ^ 27) by (apply Rinv_0_lt_compat, pow_lt; lra). lra. }
    rewrite L_karney9.degrees_minus, L_karney4.degrees_PI2. lra.
  - change as_rad with rad_in. cbn [rad_in]. rewrite L_karney3.rad_deg. replace (radians 90) with (PI/2) by (unfold radians; field). lra.
Qed.
(** Along the equator of any ellipsoid: s / a of longitude, course unchanged. *)
Theorem C49_equator : forall lon1 s ell deg, ell_ok ell ->
  (exists lon2, geodesic_direct 0 lon1 (quarter deg) s ell deg = (0, lon2, quarter deg) /\ wrapped deg (lon1 + of_deg deg (degrees (s / ell_a ell))) lon2) /\
  (exists lon2, geodesic_direct 0 lon1 (- quarter deg) s ell deg = (0, lon2, - quarter deg) /\ wrapped deg (lon1 - of_deg deg (degrees (s / ell_a ell))) lon2).
Proof.
  intros lon1 s ell deg H. destruct (L_karney5.get_oblate ell H) as (O & Ea & _).
  assert (Z0 : to_deg deg 0 = 0) by (destruct deg; cbn; [reflexivity|unfold degrees, Rdiv; ring]).
  assert (Z1 : of_deg deg 0 = 0) by (destruct deg; cbn; [reflexivity|unfold radians, Rdiv; ring]).
  assert (Q1 : to_deg deg (quarter deg) = 90) by (destruct deg; cbn; [reflexivity|apply L_karney4.degrees_PI2]).
  assert (Q2 : to_deg deg (- quarter deg) = -90) by (destruct deg; cbn; [reflexivity|unfold degrees; field; apply PI_neq0]).
  assert (Q3 : of_deg deg 90 = quarter deg) by (rewrite <- Q1; apply of_to).
  assert (Q4 : of_deg deg (-90) = - quarter deg) by (rewrite <- Q2; apply of_to).
  assert (R9 : radians 90 = PI/2) by (unfold radians; field). assert (R9' : radians (-90) = - (PI/2)) by (unfold radians; field).
  split; rewrite direct_open, Z0.
  - rewrite Q1, (L_karney5.Direct_equator _ (to_deg deg lon1) 90 s 1 O); [|now left|now rewrite R9, cos_PI2|now rewrite R9, sin_PI2].
    rewrite Z1, Rmult_1_l, Rmult_1_l, Q3, Ea. eexists. split; [reflexivity|].
    replace (to_deg deg lon1 + degrees (s / ell_a ell)) with (to_deg deg (lon1 + of_deg deg (degrees (s / ell_a ell)))); [apply of_wrap|].
    destruct deg; cbn [to_deg of_deg]; [reflexivity|]. now rewrite L_karney.degrees_plus, L_karney3.deg_rad.
  - rewrite Q2, (L_karney5.Direct_equator _ (to_deg deg lon1) (-90) s (-1) O); [|now right|now rewrite R9', cos_neg, cos_PI2|now rewrite R9', sin_neg, sin_PI2].
    replace (-1 * 90) with (-90) by ring. rewrite Z1, Q4, Ea. eexists. split; [reflexivity|].
    replace (to_deg deg lon1 + degrees (-1 * (s / ell_a ell))) with (to_deg deg (lon1 - of_deg deg (degrees (s / ell_a ell)))); [apply of_wrap|].
    replace (-1 * (s / ell_a ell)) with (- (s / ell_a ell)) by ring. rewrite L_karney9.degrees_opp.
    destruct deg; cbn [to_deg of_deg]; [reflexivity|]. now rewrite L_karney9.degrees_minus, L_karney3.deg_rad.
Qed.

(** ** C67: symmetries of geodesic_inverse, every ellipsoid *)
Definition distance_of (r : R * R * R) : R := fst (fst r).
Lemma distance_open lat1 lon1 lat2 lon2 ell deg : distance_of (geodesic_inverse lat1 lon1 lat2 lon2 ell deg) =
  L_karney6.idist (Inverse (get_geodesic ell) (to_deg deg lat1) (to_deg deg lon1) (to_deg deg lat2) (to_deg deg lon2)).
Proof. rewrite inverse_open. destruct (Inverse _ _ _ _ _) as [[a b] c]. reflexivity. Qed.
Lemma to_opp deg x : to_deg deg (- x) = - to_deg deg x.
Proof. destruct deg; cbn; [reflexivity|unfold degrees, Rdiv; ring]. Qed.
Lemma to_shift deg x r (k : Z) : to_deg deg (x + r + IZR k * full deg) = to_deg deg x + to_deg deg r + IZR k * 360.
Proof. destruct deg; cbn [to_deg full]; [reflexivity|unfold degrees; field; apply PI_neq0]. Qed.
Theorem C67_distance_symmetric : forall lat1 lon1 lat2 lon2 ell deg, lat_ok deg lat1 -> lat_ok deg lat2 ->
  distance_of (geodesic_inverse lat1 lon1 lat2 lon2 ell deg) = distance_of (geodesic_inverse lat2 lon2 lat1 lon1 ell deg).
Proof. intros. rewrite !distance_open. apply L_karney6.Inverse_dist_sym; now apply to_range. Qed.
Theorem C67_longitude_invariance : forall lat1 lon1 lat2 lon2 ell deg r (k1 k2 : Z), lat_ok deg lat1 ->
  geodesic_inverse lat1 (lon1 + r + IZR k1 * full deg) lat2 (lon2 + r + IZR k2 * full deg) ell deg =
  geodesic_inverse lat1 lon1 lat2 lon2 ell deg.
Proof. intros. rewrite !inverse_open, !to_shift, L_karney6.Inverse_lon_shift by now apply to_range. reflexivity. Qed.
Theorem C67_mirror_distance : forall lat1 lon1 lat2 lon2 ell deg, lat_ok deg lat1 ->
  distance_of (geodesic_inverse lat1 (- lon1) lat2 (- lon2) ell deg) = distance_of (geodesic_inverse lat1 lon1 lat2 lon2 ell deg) /\
  distance_of (geodesic_inverse (- lat1) lon1 (- lat2) lon2 ell deg) = distance_of (geodesic_inverse lat1 lon1 lat2 lon2 ell deg).
Proof.
  intros. rewrite !distance_open, !to_opp. apply to_range in H. split; [now apply L_karney6.Inverse_ew_dist|now apply L_karney6.Inverse_ns_dist].
Qed.
Theorem C67_east_west_mirror_azimuths : forall lat1 lon1 lat2 lon2 ell deg d az1 az2 d' az1' az2', lat_ok deg lat1 ->
  geodesic_inverse lat1 lon1 lat2 lon2 ell deg = (d, az1, az2) ->
  geodesic_inverse lat1 (- lon1) lat2 (- lon2) ell deg = (d', az1', az2') ->
  0 < Rabs az1 < half deg -> 0 < Rabs az2 < half deg ->
  ~ (exists k : Z, lon2 - lon1 = IZR k * half deg) -> az1' = - az1 /\ az2' = - az2.
Proof.
  intros lat1 lon1 lat2 lon2 ell deg d az1 az2 d' az1' az2' H E E' A1 A2 N. rewrite inverse_open in E, E'. rewrite !to_opp in E'.
  pose proof (L_karney6.Inverse_ew_azi (get_geodesic ell) (to_deg deg lat1) (to_deg deg lon1) (to_deg deg lat2) (to_deg deg lon2) (to_range _ _ H)) as Q.
  destruct (Inverse _ _ (to_deg deg lon1) _ _) as [[a b] c]. destruct (Inverse _ _ (- to_deg deg lon1) _ _) as [[a' b'] c'].
  unfold L_karney6.iaz1, L_karney6.iaz2 in Q. cbn [fst snd] in Q. injection E as <- <- <-. injection E' as <- <- <-.
  assert (AB : forall x, 0 < Rabs (of_deg deg x) < half deg -> 0 < Rabs x < 180).
  { intros x. destruct deg; cbn [of_deg half]; [tauto|]. replace (radians x) with (x * (PI / 180)) by (unfold radians; field).
    pose proof PI_RGT_0. rewrite Rabs_mult, (Rabs_right (PI/180)) by lra. intros Hx.
    split; apply Rmult_lt_reg_r with (PI/180); lra. }
  specialize (Q (AB _ A1) (AB _ A2)).
  assert (NN : forall z (j : Z), z = IZR j * 180 -> AngNormalize (to_deg deg lon2 - to_deg deg lon1) <> z).
  { intros z j -> Z. apply N. destruct (L_karney.AngNormalize_congr (to_deg deg lon2 - to_deg deg lon1)) as [k K].
    exists (j - 2 * k)%Z. rewrite <- (of_to deg lon2), <- (of_to deg lon1), minus_IZR, mult_IZR. rewrite Z in K.
    destruct deg; cbn [of_deg to_deg half full] in *; [lra|]. unfold radians in *.
    replace (degrees lon2 * PI / 180 - degrees lon1 * PI / 180) with ((degrees lon2 - degrees lon1) * PI / 180) by field.
    replace (degrees lon2 - degrees lon1) with (IZR j * 180 - IZR k * 360) by lra. field. }
  destruct Q as [-> ->]; [split; [apply (NN _ 1%Z); simpl; lra|apply (NN _ 0%Z); simpl; lra]|].
  split; destruct deg; cbn [of_deg]; try reflexivity; unfold radians; field.
Qed.
(** Coincident points (up to whole turns) are at distance 0. *)
Theorem C67_coincident_is_zero : forall lat lon ell deg (k : Z), lat_ok deg lat ->
  distance_of (geodesic_inverse lat lon lat (lon + IZR k * full deg) ell deg) = 0.
Proof.
  intros lat lon ell deg k H. rewrite distance_open. replace (lon + IZR k * full deg) with (lon + 0 + IZR k * full deg) by ring. rewrite to_shift.
  replace (to_deg deg 0) with 0 by (destruct deg; cbn; [reflexivity|unfold degrees, Rdiv; ring]). rewrite Rplus_0_r.
  apply L_karney9.Inverse_coincident. now apply to_range.
Qed.

(** ** C68: geodesic_inverse on spheres and along the equator *)
(** Distance, departure bearing, and arrival course: at the target the reported azimuth
    is the great circle's tangent there. *)
Theorem C68_sphere : forall lat1 lon1 lat2 lon2 ell deg d azi1 azi2, ell_ok ell -> ell_a ell = ell_b ell ->
  off_pole deg lat1 -> off_pole deg lat2 ->
  geodesic_inverse lat1 lon1 lat2 lon2 ell deg = (d, azi1, azi2) ->
  let th := unit_angle (dir deg lat1 lon1) (dir deg lat2 lon2) in
  d = ell_a ell * th /\ is_bearing deg lat1 lon1 (dir deg lat2 lon2) azi1 /\ (0 < th < PI -> heading deg lat2 lon2 azi2 = arc_heading deg lat1 lon1 azi1 th).
Proof.
  intros lat1 lon1 lat2 lon2 ell deg d azi1 azi2 H E P1 P2 D th. rewrite inverse_open in D. destruct (L_karney2.get_spherical ell H E) as [Sp Eb].
  destruct (off_pole_deg _ _ P1) as [B1 T1]. destruct (off_pole_deg _ _ P2) as [B2 T2].
  pose proof (L_karney8.Inverse_sphere (get_geodesic ell) _ (to_deg deg lon1) _ (to_deg deg lon2) Sp B1 B2 T1 T2) as Q. cbv zeta in Q.
  destruct (Inverse _ _ _ _ _) as [[a b] c]. rewrite !to_rad, Eb in Q. injection D as <- <- <-. destruct Q as (Qd & S & S0 & S2 & Sth & Qe & Qn & Qe2 & Qn2).
  split; [exact Qd|]. split.
  - unfold is_bearing, dir. rewrite L_vincenty3.bearing_E, L_vincenty3.bearing_N, of_rad. unfold L_karney8.dep_E, L_karney8.dep_N in *.
    replace (sqrt _) with S; [split; assumption|]. symmetry. apply sqrt_lem_1; [nra|exact S0|]. rewrite Rplus_comm, <- S2. ring.
  - intros TH. change (unit_angle _ _) with th in Sth. assert (SP : 0 < sin th) by (apply sin_gt_0; lra). unfold heading, arc_heading. rewrite !of_rad.
    pose proof (L_ecef.unit_normal_unit (as_rad deg lat1) (as_rad deg lon1)) as N1. pose proof (L_ecef.unit_normal_unit (as_rad deg lat2) (as_rad deg lon2)) as N2.
    pose proof (L_nvector.cos_angle _ _ N1 N2) as CT. change (unit_angle _ _) with th in CT.
    rewrite Sth in *. unfold L_karney8.dep_E, L_karney8.dep_N, L_karney8.arr_E, L_karney8.arr_N in *.
    set (U1 := as_rad deg lat1) in *. set (U2 := as_rad deg lat2) in *. set (l1 := as_rad deg lon1) in *. set (l2 := as_rad deg lon2) in *.
    assert (C1 : cos (radians b) = (cos U1 * sin U2 - sin U1 * cos U2 * cos (l2 - l1)) / sin th) by (apply Rmult_eq_reg_l with (sin th); [rewrite Qn; field|]; lra).
    assert (C2 : sin (radians b) = cos U2 * sin (l2 - l1) / sin th) by (apply Rmult_eq_reg_l with (sin th); [rewrite Qe; field|]; lra).
    assert (C3 : cos (radians c) = (cos U1 * sin U2 * cos (l2 - l1) - sin U1 * cos U2) / sin th) by (apply Rmult_eq_reg_l with (sin th); [rewrite Qn2; field|]; lra).
    assert (C4 : sin (radians c) = cos U1 * sin (l2 - l1) / sin th) by (apply Rmult_eq_reg_l with (sin th); [rewrite Qe2; field|]; lra).
    assert (K1 : vdot (unit_normal U1 l1) (unit_normal U2 l2) = sin U1 * sin U2 + cos U1 * cos U2 * cos (l2 - l1)) by (rewrite cos_minus; cbn; ring).
    rewrite K1 in CT.
    (* sin th * (goal), then expand n1 in the frame at point 2 and n2 in the frame at point 1 *)
    pose proof (L_vincenty4.frame_expand U1 l1 (unit_normal U2 l2)) as F1. pose proof (L_vincenty4.frame_expand U2 l2 (unit_normal U1 l1)) as F2.
    rewrite L_vincenty3.bearing_E, L_vincenty3.bearing_N in F1, F2.
    assert (D1 : vdot (unit_normal U2 l2) (unit_normal U1 l1) = cos th) by (rewrite CT, cos_minus; cbn; ring).
    assert (D2 : vdot (unit_normal U1 l1) (unit_normal U2 l2) = cos th) by (rewrite CT; exact K1).
    rewrite D1 in F1. rewrite D2 in F2. rewrite C1, C2, C3, C4.
    assert (SQ : sin th * sin th = 1 - cos th * cos th) by (pose proof (L_PyMath.sc1 th); lra).
    replace (l1 - l2) with (- (l2 - l1)) in F2 by ring. rewrite sin_neg, cos_neg in F2.
    set (x := cos U1 * sin U2 - sin U1 * cos U2 * cos (l2 - l1)) in *. set (y := cos U2 * sin (l2 - l1)) in *.
    set (u := cos U1 * sin U2 * cos (l2 - l1) - sin U1 * cos U2) in *. set (w := cos U1 * sin (l2 - l1)) in *.
    replace (cos U2 * sin U1 - sin U2 * cos U1 * cos (l2 - l1)) with (- u) in F2 by (unfold u; ring).
    replace (cos U1 * - sin (l2 - l1)) with (- w) in F2 by (unfold w; ring).
    destruct (unit_normal U1 l1) as [[n1 n2] n3]. destruct (unit_normal U2 l2) as [[m1 m2] m3].
    destruct (north_axis U1 l1) as [[k1 k2] k3]. destruct (north_axis U2 l2) as [[j1 j2] j3].
    destruct (east_axis U1 l1) as [[e1 e2] e3]. destruct (east_axis U2 l2) as [[g1 g2] g3].
    cbn [vadd vscale] in F1, F2 |- *. 
    apply pair_equal_spec in F1. destruct F1 as [F1 F13]. apply pair_equal_spec in F1. destruct F1 as [F11 F12].
    apply pair_equal_spec in F2. destruct F2 as [F2 F23]. apply pair_equal_spec in F2. destruct F2 as [F21 F22].
    assert (G : forall n m k j e g, m = cos th * n + (x * k + y * e) -> n = cos th * m + (- u * j + - w * g) ->
      u / sin th * j + w / sin th * g = - sin th * n + cos th * (x / sin th * k + y / sin th * e)).
    { intros n m k j e g Em En. apply Rmult_eq_reg_l with (sin th); [|lra].
      transitivity (u * j + w * g); [field; lra|]. transitivity (- (sin th * sin th) * n + cos th * (x * k + y * e)); [|field; lra].
      rewrite SQ. replace (x * k + y * e) with (m - cos th * n) by lra. lra. }
    rewrite (G _ _ _ _ _ _ F11 F21), (G _ _ _ _ _ _ F12 F22), (G _ _ _ _ _ _ F13 F23). reflexivity.
Qed.
Lemma is_bearing_arc deg lat1 lon1 lat2 lon2 az : is_bearing deg lat1 lon1 (dir deg lat2 lon2) az ->
  arc_end deg lat1 lon1 az (unit_angle (dir deg lat1 lon1) (dir deg lat2 lon2)) = dir deg lat2 lon2.
Proof.
  intros [Be Bn]. unfold dir in *. pose proof (L_ecef.unit_normal_unit (as_rad deg lat1) (as_rad deg lon1)) as N1. pose proof (L_ecef.unit_normal_unit (as_rad deg lat2) (as_rad deg lon2)) as N2.
  pose proof (L_nvector.angle_range _ _ N1 N2) as R. unfold arc_end. rewrite (L_nvector.cos_angle _ _ N1 N2).
  set (th := unit_angle _ _) in *. assert (S0 : 0 <= sin th) by (apply sin_ge_0; lra).
  pose proof (L_vincenty4.frame_expand (as_rad deg lat1) (as_rad deg lon1) (unit_normal (as_rad deg lat2) (as_rad deg lon2))) as F.
  pose proof (L_nvector.cos_angle _ _ N1 N2) as CT. fold th in CT.
  assert (SS : sqrt (vdot (unit_normal (as_rad deg lat2) (as_rad deg lon2)) (north_axis (as_rad deg lat1) (as_rad deg lon1)) ^ 2 +
    vdot (unit_normal (as_rad deg lat2) (as_rad deg lon2)) (east_axis (as_rad deg lat1) (as_rad deg lon1)) ^ 2) = sin th).
  { rewrite L_vincenty3.bearing_E, L_vincenty3.bearing_N. apply sqrt_lem_1; [apply Rplus_le_le_0_compat; apply pow2_ge_0|exact S0|]. pose proof (L_PyMath.sc1 th) as ST.
    replace (sin th * sin th) with (1 - cos th * cos th) by lra. rewrite CT.
    replace (vdot (unit_normal (as_rad deg lat1) (as_rad deg lon1)) (unit_normal (as_rad deg lat2) (as_rad deg lon2))) with
      (sin (as_rad deg lat1) * sin (as_rad deg lat2) + cos (as_rad deg lat1) * cos (as_rad deg lat2) * cos (as_rad deg lon2 - as_rad deg lon1)) by (rewrite cos_minus; cbn; ring).
    pose proof (L_PyMath.sc1 (as_rad deg lat1)) as A1. pose proof (L_PyMath.sc1 (as_rad deg lat2)) as A2. pose proof (L_PyMath.sc1 (as_rad deg lon2 - as_rad deg lon1)) as A3.
    set (s1 := sin (as_rad deg lat1)) in *. set (c1 := cos (as_rad deg lat1)) in *. set (s2 := sin (as_rad deg lat2)) in *. set (c2 := cos (as_rad deg lat2)) in *.
    set (sl := sin (_ - _)) in *. set (cl := cos (_ - _)) in *.
    assert (Q1 : s1 ^ 2 = 1 - c1 ^ 2) by nra. assert (Q2 : s2 ^ 2 = 1 - c2 ^ 2) by nra. assert (Q3 : sl ^ 2 = 1 - cl ^ 2) by nra. ring [Q1 Q2 Q3]. }
  rewrite SS in Be, Bn. rewrite F at 2. 
  rewrite <- Be, <- Bn. rewrite (L_ecef.vdot_comm (unit_normal (as_rad deg lat2) (as_rad deg lon2)) (unit_normal (as_rad deg lat1) (as_rad deg lon1))).
  destruct (unit_normal (as_rad deg lat1) (as_rad deg lon1)) as [[n1 n2] n3] eqn:En. 
  destruct (north_axis (as_rad deg lat1) (as_rad deg lon1)) as [[k1 k2] k3]. destruct (east_axis (as_rad deg lat1) (as_rad deg lon1)) as [[e1 e2] e3].
  cbn [vadd vscale]. apply f_equal2; [apply f_equal2|]; ring.
Qed.
Lemma as_rad_inj deg x y : as_rad deg x = as_rad deg y -> x = y.
Proof. intros E. rewrite <- (of_to deg x), <- (of_to deg y). f_equal. rewrite <- !to_rad in E. rewrite <- (L_karney3.deg_rad (to_deg deg x)), E. apply L_karney3.deg_rad. Qed.
Lemma as_rad_half deg x : - half deg < x <= half deg -> - PI < as_rad deg x <= PI.
Proof. destruct deg; cbn [half as_rad]; [|tauto]. pose proof PI_RGT_0 as P. intros H. split; nra. Qed.
Lemma wrapped_of_trig deg x y : - half deg < y <= half deg -> cos (as_rad deg y) = cos (as_rad deg x) -> sin (as_rad deg y) = sin (as_rad deg x) -> wrapped deg x y.
Proof.
  intros H C S. pose proof (of_wrap deg x) as W. set (w := of_deg _ _) in *. replace y with w; [exact W|]. destruct W as [Wr [k K]]. apply (as_rad_inj deg).
  assert (E : as_rad deg w = as_rad deg x + IZR k * (2 * PI)) by (rewrite K; destruct deg; cbn [as_rad full]; field).
  assert (C' : cos (as_rad deg w) = cos (as_rad deg y)) by (rewrite C, E; apply L_PyMath.cos_period_Z).
  assert (S' : sin (as_rad deg w) = sin (as_rad deg y)) by (rewrite S, E; apply L_PyMath.sin_period_Z).
  apply as_rad_half in H, Wr. apply Rminus_diag_uniq, L_PyMath.cos_eq_1_range; [lra|]. rewrite cos_minus, C', S'. pose proof (L_PyMath.sc1 (as_rad deg y)). lra.
Qed.
Lemma off_pole_open deg lat : off_pole deg lat -> - (PI/2) < as_rad deg lat < PI/2.
Proof. intros H. apply off_pole_deg in H. destruct H as [H _]. rewrite <- to_rad. unfold radians. pose proof PI_RGT_0 as P. split; nra. Qed.
Lemma dir_inj deg lat lon lat' lon' : lat_ok deg lat -> - half deg < lon <= half deg -> off_pole deg lat' -> dir deg lat lon = dir deg lat' lon' ->
  lat = lat' /\ wrapped deg lon' lon.
Proof.
  intros L H P E. destruct (L_vincenty4.unit_normal_inj (as_rad deg lat) (as_rad deg lon) (as_rad deg lat') (as_rad deg lon')) as (A & B & C).
  - change as_rad with rad_in. now apply L_vincenty3.rad_in_bounds. - now apply off_pole_open. - exact E.
  - split; [now apply as_rad_inj in A|]. now apply wrapped_of_trig.
Qed.
Lemma heading_inj deg lat lon x y : - half deg < x <= half deg -> - half deg < y <= half deg ->
  heading deg lat lon x = heading deg lat lon y -> x = y.
Proof.
  intros Hx Hy E.
  assert (C : forall a, vdot (heading deg lat lon a) (north_axis (as_rad deg lat) (as_rad deg lon)) = cos (as_rad deg a) /\
                        vdot (heading deg lat lon a) (east_axis (as_rad deg lat) (as_rad deg lon)) = sin (as_rad deg a)).
  { intros a. unfold heading. pose proof (L_PyMath.sc1 (as_rad deg lat)) as A. pose proof (L_PyMath.sc1 (as_rad deg lon)) as B.
    set (p := as_rad deg lat) in *. set (l := as_rad deg lon) in *. set (s := sin (as_rad deg a)). set (c := cos (as_rad deg a)).
    assert (A2 : sin p ^ 2 = 1 - cos p ^ 2) by nra. assert (B2 : sin l ^ 2 = 1 - cos l ^ 2) by nra. cbn. split; ring [A2 B2]. }
  destruct (C x) as [X1 X2]. destruct (C y) as [Y1 Y2]. rewrite E in X1, X2. apply (wrapped_unique deg y); [apply wrapped_of_trig; [exact Hx|congruence|congruence]|].
  split; [exact Hy|]. exists 0%Z. simpl. lra.
Qed.
(** Feeding the answer to geodesic_direct comes back to the target, with the reported
    arrival azimuth. *)
Theorem C68_direct_undoes_inverse : forall lat1 lon1 lat2 lon2 ell deg d azi1 azi2, ell_ok ell -> ell_a ell = ell_b ell ->
  off_pole deg lat1 -> off_pole deg lat2 ->
  geodesic_inverse lat1 lon1 lat2 lon2 ell deg = (d, azi1, azi2) ->
  exists lon azi, geodesic_direct lat1 lon1 azi1 d ell deg = (lat2, lon, azi) /\ wrapped deg lon2 lon /\
    (dir deg lat2 lon2 <> dir deg lat1 lon1 -> dir deg lat2 lon2 <> vopp (dir deg lat1 lon1) -> azi = azi2).
Proof.
  intros lat1 lon1 lat2 lon2 ell deg d azi1 azi2 H E P1 P2 D. pose proof (C68_sphere _ _ _ _ _ _ _ _ _ H E P1 P2 D) as Q. cbv zeta in Q. destruct Q as (Qd & Qb & Qh).
  destruct (L_ell.ell_pos ell H) as [Hb Ha].
  pose proof (is_bearing_arc _ _ _ _ _ _ Qb) as A. set (th := unit_angle _ _) in *.
  assert (DA : d / ell_a ell = th) by (rewrite Qd; field; lra).
  destruct (geodesic_direct lat1 lon1 azi1 d ell deg) as [[lat lon] azi] eqn:G.
  destruct (C47_direct_ranges _ _ _ _ _ _ _ _ _ H G) as (R1 & R2 & R3).
  assert (NPT : forall z, arc_end deg lat1 lon1 azi1 (d / ell_a ell) <> (0, 0, z)).
  { intros z. rewrite DA, A. unfold dir, unit_normal. intros X. apply off_pole_open in P2. assert (0 < cos (as_rad deg lat2)) by (apply cos_gt_0; lra).
    pose proof (L_PyMath.sc1 (as_rad deg lon2)) as SC. apply pair_equal_spec in X. destruct X as [X _]. apply pair_equal_spec in X. destruct X as [X Y].
    apply Rmult_integral in X, Y. destruct X as [X|X], Y as [Y|Y]; try lra. rewrite X, Y in SC. lra. }
  destruct (C49_sphere_partial _ _ _ _ _ _ _ _ _ H E P1 NPT G) as [K1 K2].
  rewrite DA in K1, K2. rewrite A in K1. destruct (dir_inj _ _ _ _ _ R1 R2 P2 K1) as [-> W]. exists lon, azi. split; [reflexivity|]. split; [exact W|].
  intros N1 N2. pose proof (L_ecef.unit_normal_unit (as_rad deg lat1) (as_rad deg lon1)) as U1. pose proof (L_ecef.unit_normal_unit (as_rad deg lat2) (as_rad deg lon2)) as U2.
  pose proof (L_nvector.angle_range _ _ U1 U2) as AR. change (unit_angle _ _) with th in AR.
  assert (0 < th < PI).
  { split; apply Rnot_le_lt; intros X.
    - apply N1. symmetry. apply (L_nvector.angle_0 _ _ U1 U2). change (unit_angle _ _) with th. lra.
    - apply N2. apply (L_nvector.angle_PI _ _ U1 U2). change (unit_angle _ _) with th. lra. }
  rewrite <- (Qh H0) in K2. 
  destruct (C47_inverse_azimuth_ranges _ _ _ _ _ _ _ _ _ (proj1 P1) D) as [_ R4].
  apply (heading_inj deg lat2 lon2); [exact R3|exact R4|]. rewrite <- K2. unfold heading.
  destruct W as [_ [k ->]]. replace (as_rad deg (lon2 + IZR k * full deg)) with (as_rad deg lon2 + IZR k * (2 * PI)) by (destruct deg; cbn [as_rad full]; field).
  unfold north_axis, east_axis. rewrite L_PyMath.sin_period_Z, L_PyMath.cos_period_Z. reflexivity.
Qed.
(** Two points of the equator, up to (1 - f) half turns apart: the equator itself is the
    path, on every ellipsoid. *)
Theorem C68_equator : forall lon1 L ell deg (k : Z), ell_ok ell -> 0 < L < half deg -> L <= half deg * (ell_b ell / ell_a ell) ->
  geodesic_inverse 0 lon1 0 (lon1 + L + IZR k * full deg) ell deg = (ell_a ell * as_rad deg L, quarter deg, quarter deg) /\
  geodesic_inverse 0 lon1 0 (lon1 - L + IZR k * full deg) ell deg = (ell_a ell * as_rad deg L, - quarter deg, - quarter deg).
Proof.
  intros lon1 L ell deg k H H1 H2. destruct (L_karney5.get_oblate ell H) as (O & Ea & Eb). pose proof PI_RGT_0 as P. destruct (L_ell.ell_pos ell H) as [Hb Ha].
  assert (Ef : 1 - gd_f (get_geodesic ell) = ell_b ell / ell_a ell).
  { pose proof O as (_ & _ & Oa & Ob & _). rewrite <- Ea, <- Eb. apply Rmult_eq_reg_r with (gd_a (get_geodesic ell)); [|lra]. unfold Rdiv. rewrite Rmult_assoc, Rinv_l by lra. rewrite Ob, Oa. ring. }
  assert (T1 : 0 < to_deg deg L < 180).
  { destruct deg; cbn [to_deg half] in *; [lra|]. unfold degrees. split; [apply Rdiv_lt_0_compat; lra|]. apply Rmult_lt_reg_r with PI; [lra|]. unfold Rdiv. rewrite Rmult_assoc, Rinv_l by lra. lra. }
  assert (T2 : to_deg deg L <= 180 * (ell_b ell / ell_a ell)).
  { destruct deg; cbn [to_deg half] in *; [lra|]. unfold degrees. apply Rmult_le_reg_r with PI; [lra|]. unfold Rdiv at 1. rewrite Rmult_assoc, Rinv_l by lra. lra. }
  assert (Z0 : to_deg deg 0 = 0) by (destruct deg; cbn; [reflexivity|unfold degrees, Rdiv; ring]).
  assert (S1 : to_deg deg (lon1 + L + IZR k * full deg) = to_deg deg lon1 + to_deg deg L + IZR k * 360) by apply to_shift.
  assert (S2 : to_deg deg (lon1 - L + IZR k * full deg) = to_deg deg lon1 - to_deg deg L + IZR k * 360).
  { replace (lon1 - L) with (lon1 + - L) by ring. rewrite to_shift, to_opp. ring. }
  assert (Q3 : of_deg deg 90 = quarter deg) by (destruct deg; cbn; [reflexivity|unfold radians; field]).
  assert (Q4 : of_deg deg (-90) = - quarter deg) by (destruct deg; cbn; [reflexivity|unfold radians; field]).
  rewrite !inverse_open, Z0, S1, S2, <- Q4, <- Q3, <- to_rad, <- Ea.
  destruct (L_karney9.Inverse_equator (get_geodesic ell) (to_deg deg lon1) (to_deg deg lon1 + to_deg deg L + IZR k * 360) (to_deg deg L) O) as [I1 _]; [rewrite Ef; lra|lra|].
  destruct (L_karney9.Inverse_equator (get_geodesic ell) (to_deg deg lon1) (to_deg deg lon1 - to_deg deg L + IZR k * 360) (to_deg deg L) O) as [_ I2]; [rewrite Ef; lra|lra|].
  rewrite I1, I2 by (exists k; ring). split; reflexivity.
Qed.
Example C68_hypotheses_met : off_pole true 45 /\ off_pole false (-1) /\ 0 < 90 < half true /\ 90 <= half true * (ell_b None / ell_a None).
Proof.
  assert (T : / 2 ^ 26 <= 1 / 2) by (rewrite <- L_karney2.tiny_eq; apply L_karney9.tiny_half). pose proof L_vincenty.pi_gt3. pose proof PI_4.
  assert (forall x, - (PI/3) <= x <= PI/3 -> / 2 ^ 26 <= cos x).
  { intros x Hx. assert (1 / 2 <= cos x); [|lra]. rewrite <- cos_PI3. destruct (Rle_dec 0 x).
    - destruct (Req_dec x (PI/3)) as [->|]; [lra|]. left. apply cos_decreasing_1; lra.
    - rewrite <- (cos_neg x). destruct (Req_dec (- x) (PI/3)) as [->|]; [lra|]. left. apply cos_decreasing_1; lra. }
  split; [|split; [|split]].
  - split; [unfold lat_ok; cbn; lra|]. cbn [as_rad]. apply H1. lra.
  - split; [unfold lat_ok; cbn [quarter]; lra|]. cbn [as_rad]. apply H1. lra.
  - cbn. lra.
  - cbn [half]. destruct wgs84_mild as [M1 M2]. destruct (L_ell.ell_pos None M1). 
    assert (1 / 2 <= ell_b None / ell_a None); [|lra]. apply Rmult_le_reg_r with (ell_a None); [lra|]. unfold Rdiv at 2. rewrite Rmult_assoc, Rinv_l, Rmult_1_r by lra. nra.
Qed.

(** ** C46: geodesic_line *)
Theorem C46_line_count : forall lat1 lon1 lat2 lon2 ell npts deg lats lons, geodesic_line lat1 lon1 lat2 lon2 ell npts deg = (lats, lons) ->
  List.length lats = npts /\ List.length lons = npts.
Proof. intros lat1 lon1 lat2 lon2 ell npts deg lats lons E. pose proof (L_karney9.line_length lat1 lon1 lat2 lon2 ell npts deg) as Q. rewrite E in Q. exact Q. Qed.
(** The i-th point is the end of the i-th of npts - 1 equal parts of the path. *)
Theorem C46_line_points : forall lat1 lon1 lat2 lon2 ell npts deg lats lons d azi1 azi2 i, (2 <= npts)%nat -> (i < npts)%nat ->
  geodesic_line lat1 lon1 lat2 lon2 ell npts deg = (lats, lons) -> geodesic_inverse lat1 lon1 lat2 lon2 ell deg = (d, azi1, azi2) ->
  exists azi, geodesic_direct lat1 lon1 azi1 (d * (INR i / INR (npts - 1))) ell deg = (nth i lats 0, nth i lons 0, azi).
Proof.
  intros lat1 lon1 lat2 lon2 ell npts deg lats lons d azi1 azi2 i Hn Hi L I. pose proof (L_karney9.line_nth lat1 lon1 lat2 lon2 ell npts deg i Hi) as Q.
  rewrite L, I in Q. cbv zeta in Q. destruct (Nat.ltb_spec 1 npts); [|lia]. rewrite minus_INR by lia. change (INR 1) with 1.
  destruct (geodesic_direct _ _ _ _ _ _) as [[x y] z]. exists z. cbn [fst] in Q. now rewrite Q.
Qed.
Theorem C46_line_one_point : forall lat1 lon1 lat2 lon2 ell deg d azi1 azi2 lat lon azi,
  geodesic_inverse lat1 lon1 lat2 lon2 ell deg = (d, azi1, azi2) -> geodesic_direct lat1 lon1 azi1 0 ell deg = (lat, lon, azi) ->
  geodesic_line lat1 lon1 lat2 lon2 ell 1 deg = ([lat], [lon]).
Proof.
  intros lat1 lon1 lat2 lon2 ell deg d azi1 azi2 lat lon azi I G. unfold geodesic_line. rewrite I. cbn [seq map Nat.ltb Nat.leb]. replace (d * 0.0) with 0 by lra.
  rewrite G. reflexivity.
Qed.
Theorem C46_line_sphere_partial : forall lat1 lon1 lat2 lon2 ell npts deg lats lons, ell_ok ell -> ell_a ell = ell_b ell -> (2 <= npts)%nat ->
  off_pole deg lat1 -> off_pole deg lat2 -> geodesic_line lat1 lon1 lat2 lon2 ell npts deg = (lats, lons) ->
  let th := unit_angle (dir deg lat1 lon1) (dir deg lat2 lon2) in
  (nth 0 lats 0 = lat1 /\ wrapped deg lon1 (nth 0 lons 0)) /\
  (nth (npts - 1) lats 0 = lat2 /\ wrapped deg lon2 (nth (npts - 1) lons 0)) /\
  (exists azi1, is_bearing deg lat1 lon1 (dir deg lat2 lon2) azi1 /\ forall i, (i < npts)%nat ->
     let p := arc_end deg lat1 lon1 azi1 (INR i / INR (npts - 1) * th) in
     (forall z, p <> (0, 0, z)) -> dir deg (nth i lats 0) (nth i lons 0) = p).
Proof.
  intros lat1 lon1 lat2 lon2 ell npts deg lats lons H E Hn P1 P2 L th. destruct (L_ell.ell_pos ell H) as [Hb Ha].
  destruct (geodesic_inverse lat1 lon1 lat2 lon2 ell deg) as [[d azi1] azi2] eqn:I.
  pose proof (C68_sphere _ _ _ _ _ _ _ _ _ H E P1 P2 I) as Q. cbv zeta in Q. destruct Q as (Qd & Qb & _). fold th in Qd.
  assert (N0 : 0 < INR (npts - 1)) by (apply lt_0_INR; lia).
  split; [|split].
  - destruct (C46_line_points _ _ _ _ _ _ _ _ _ _ _ _ 0%nat Hn ltac:(lia) L I) as [az G]. change (INR 0) with 0 in G. replace (d * (0 / INR (npts - 1))) with 0 in G by (field; lra).
    destruct (C49_zero_distance_sphere lat1 lon1 azi1 ell deg H E P1) as (lon' & az' & G' & W & _). rewrite G in G'. injection G' as -> <- _. split; [reflexivity|exact W].
  - destruct (C46_line_points _ _ _ _ _ _ _ _ _ _ _ _ (npts - 1)%nat Hn ltac:(lia) L I) as [az G]. replace (d * (INR (npts - 1) / INR (npts - 1))) with d in G by (field; lra).
    destruct (C68_direct_undoes_inverse _ _ _ _ _ _ _ _ _ H E P1 P2 I) as (lon' & az' & G' & W & _). rewrite G in G'. injection G' as -> <- _. split; [reflexivity|exact W].
  - exists azi1. split; [exact Qb|]. intros i Hi p NP. destruct (C46_line_points _ _ _ _ _ _ _ _ _ _ _ _ i Hn Hi L I) as [az G].
    assert (EQ : d * (INR i / INR (npts - 1)) / ell_a ell = INR i / INR (npts - 1) * th) by (rewrite Qd; field; lra).
    assert (NQ : forall z, arc_end deg lat1 lon1 azi1 (d * (INR i / INR (npts - 1)) / ell_a ell) <> (0, 0, z)) by (rewrite EQ; exact NP).
    destruct (C49_sphere_partial _ _ _ _ _ _ _ _ _ H E P1 NQ G) as [K' _]. rewrite EQ in K'. exact K'.
Qed.
(** Along the equator of any ellipsoid: equal steps of longitude, ending at the target. *)
Theorem C46_line_equator : forall lon1 L ell deg npts lats lons, ell_ok ell -> (2 <= npts)%nat ->
  0 < L < half deg -> L <= half deg * (ell_b ell / ell_a ell) -> geodesic_line 0 lon1 0 (lon1 + L) ell npts deg = (lats, lons) ->
  forall i, (i < npts)%nat -> nth i lats 0 = 0 /\ wrapped deg (lon1 + INR i / INR (npts - 1) * L) (nth i lons 0).
Proof.
  intros lon1 L ell deg npts lats lons H Hn HL HL2 G i Hi. destruct (C68_equator lon1 L ell deg 0 H HL HL2) as [I _]. simpl IZR in I. rewrite Rmult_0_l, Rplus_0_r in I.
  destruct (C46_line_points _ _ _ _ _ _ _ _ _ _ _ _ i Hn Hi G I) as [az D]. destruct (L_ell.ell_pos ell H) as [Hb Ha].
  assert (N0 : 0 < INR (npts - 1)) by (apply lt_0_INR; lia).
  destruct (C49_equator lon1 (ell_a ell * as_rad deg L * (INR i / INR (npts - 1))) ell deg H) as [(lon2 & D' & W) _].
  rewrite D in D'. injection D' as -> <- _. split; [reflexivity|].
  replace (ell_a ell * as_rad deg L * (INR i / INR (npts - 1)) / ell_a ell) with (as_rad deg (INR i / INR (npts - 1) * L)) in W by (destruct deg; cbn [as_rad]; field; lra).
  rewrite <- to_rad, L_karney3.deg_rad, of_to in W. exact W.
Qed.

(** ** C50: geodesic_area *)
Theorem C50_too_few_vertices : forall vs ell deg, (List.length vs < 3)%nat -> geodesic_area vs ell deg = Raise ValueError.
Proof. intros. unfold geodesic_area. destruct (Nat.ltb_spec (List.length vs) 3); [reflexivity|lia]. Qed.
(** The closed boundary: distances from each vertex to the next and back to the first. *)
Definition boundary (vs : list (R * R)) : list ((R * R) * (R * R)) := combine vs (tl vs ++ firstn 1 vs).
Theorem C50_perimeter_partial : forall vs ell deg, (3 <= List.length vs)%nat ->
  exists area, geodesic_area vs ell deg =
    Ok (area, fold_right Rplus 0 (map (fun '((la, lo), (la', lo')) => distance_of (geodesic_inverse la lo la' lo' ell deg)) (boundary vs))).
Proof.
  intros vs ell deg Hn. unfold geodesic_area. destruct (Nat.ltb_spec (List.length vs) 3); [lia|].
  assert (EM : map (fun '((la, lo), (la', lo')) => distance_of (geodesic_inverse la lo la' lo' ell deg)) (boundary vs) = map (fun e => fst (fst e)) (edges vs ell deg)).
  { unfold edges, boundary. destruct vs as [|v vs]; [reflexivity|]. cbn [tl firstn]. rewrite map_map. apply map_ext. intros [[x y] [z w]]. reflexivity. }
  rewrite EM. destruct (edges vs ell deg) as [|[[d z1] z2] es] eqn:Ee.
  { exfalso. apply (f_equal (@List.length _)) in Ee. unfold edges in Ee. destruct vs as [|v vs]; [cbn in Hn; lia|]. rewrite map_length, combine_length, app_length in Ee. cbn [List.length] in Ee. lia. }
  pose proof (L_karney9.area_loop_perimeter es z2 z1 (0.0 + d) 0.0) as Q. destruct (area_loop es z2 z1 (0.0 + d) 0.0) as [p s]. cbn [fst] in Q.
  eexists. cbn [map fold_right fst]. repeat f_equal. rewrite Q. lra.
Qed.
(** The signed area is wrong.  The octant-like triangle (0,0), (0,90), (45,45) is
    traversed counterclockwise and has a positive area below a^2, yet on every sphere the
    answer is negative and larger than 3 a^2 in size. *)
Theorem C50_counterclockwise_positive_refuted : forall ell, ell_ok ell -> ell_a ell = ell_b ell ->
  0 < vdot (dir true 0 0) (vcross (dir true 0 90) (dir true 45 45)) /\
  exists area p, geodesic_area [(0, 0); (0, 90); (45, 45)] ell true = Ok (area, p) /\ area < - 3 * ell_a ell ^ 2.
Proof.
  intros ell H E. split.
  - unfold dir. cbn [as_rad]. replace (0 * PI / 180) with 0 by field. replace (90 * PI / 180) with (PI/2) by field. replace (45 * PI / 180) with (PI/4) by field.
    unfold unit_normal. rewrite cos_0, sin_0, cos_PI2, sin_PI2. cbn. pose proof PI_RGT_0. match goal with |- 0 < ?x => replace x with (sin (PI/4)) by ring end. apply sin_gt_0; lra.
  - destruct (L_karney9.area_triangle ell H E) as [[p A] _]. eexists _, p. split; [exact A|]. destruct L_karney9.alpha_sc as (_ & _ & Ar).
    pose proof L_vincenty.pi_gt3. destruct (L_ell.ell_pos ell H). assert (0 < ell_a ell ^ 2) by (apply pow_lt; lra). nra.
Qed.
(** And the same triangle given in radians has a different answer, even in sign. *)
Theorem C50_radians_refuted : forall ell, ell_ok ell -> ell_a ell = ell_b ell ->
  exists area p area' p', geodesic_area [(0, 0); (0, 90); (45, 45)] ell true = Ok (area, p) /\
    geodesic_area [(0, 0); (0, PI/2); (PI/4, PI/4)] ell false = Ok (area', p') /\ area <> area'.
Proof.
  intros ell H E. destruct (L_karney9.area_triangle ell H E) as [[p A] [p' A']]. eexists _, p, _, p'. split; [exact A|]. split; [exact A'|].
  destruct L_karney9.alpha_sc as (_ & _ & Ar). pose proof L_vincenty.pi_gt3. pose proof PI_4. destruct (L_ell.ell_pos ell H). assert (S : 0 < ell_a ell ^ 2) by (apply pow_lt; lra).
  intros X. rewrite Ropp_mult_distr_r in X. apply Rmult_eq_reg_l in X; [|lra]. unfold radians in X. nra.
Qed.
