(** Property C91: the second azimuth that geodesic_inverse and geodesic_direct return. The
    docstrings call it the back-azimuth (the direction, at the second point, of the first
    point); it is the course of arrival, which points the opposite way. *)
From Coq Require Import Reals Lra Lia Psatz.
From Verif Require Import PyMath M_ellipsoid M_karney Spec Spec_geodesic.
From Verif Require Import P_karney P_geodesic P_vincenty P_inverse P_converge P_shortest.
From Verif Require L_PyMath L_ell L_karney L_karney2 L_karney3 L_karney6.
Open Scope R_scope.

(** Exchanging the two points turns both azimuths by half a turn and exchanges them. *)
Theorem C91_exchange_reverses : forall lat1 lon1 lat2 lon2 ell deg d az1 az2 d' az1' az2', lat_ok deg lat1 -> lat_ok deg lat2 ->
  Rabs lat1 <> Rabs lat2 -> ~ (exists k : Z, lon2 - lon1 = IZR k * half deg) -> az1 <> 0 -> az2 <> 0 ->
  geodesic_inverse lat1 lon1 lat2 lon2 ell deg = (d, az1, az2) -> geodesic_inverse lat2 lon2 lat1 lon1 ell deg = (d', az1', az2') ->
  d' = d /\ (exists k : Z, az1' = az2 + half deg + IZR k * full deg) /\ (exists k : Z, az2' = az1 + half deg + IZR k * full deg).
Proof.
  intros lat1 lon1 lat2 lon2 ell deg d az1 az2 d' az1' az2' H1 H2 NE N A1 A2 E E'. rewrite inverse_open in E, E'. pose proof (to_range _ _ H1) as R1. pose proof (to_range _ _ H2) as R2.
  rewrite L_karney6.Inverse_eq in E, E' by assumption. cbv zeta in E, E'. set (g := get_geodesic ell) in *. set (x1 := to_deg deg lat1) in *. set (x2 := to_deg deg lat2) in *. set (l1 := to_deg deg lon1) in *. set (l2 := to_deg deg lon2) in *.
  assert (NX : Rabs x1 <> Rabs x2). { intros X. apply NE. unfold x1, x2 in X. destruct deg; cbn [to_deg] in X; [exact X|]. unfold degrees in X. pose proof PI_RGT_0. unfold Rdiv in X. rewrite !Rmult_assoc, !Rabs_mult in X. apply Rmult_eq_reg_r in X; [exact X|]. apply Rmult_integral_contrapositive; split; apply Rabs_no_R0; [lra|apply Rinv_neq_0_compat; lra]. }
  assert (NN : forall z (j : Z), z = IZR j * 180 -> AngNormalize (l2 - l1) <> z).
  { intros z j -> Z. apply N. destruct (L_karney.AngNormalize_congr (l2 - l1)) as [k K].
    exists (j - 2 * k)%Z. rewrite <- (of_to deg lon2), <- (of_to deg lon1), minus_IZR, mult_IZR. rewrite Z in K. unfold l1, l2 in K.
    destruct deg; cbn [of_deg to_deg half full] in *; [lra|]. unfold radians in *.
    replace (degrees lon2 * PI / 180 - degrees lon1 * PI / 180) with ((degrees lon2 - degrees lon1) * PI / 180) by field.
    replace (degrees lon2 - degrees lon1) with (IZR j * 180 - IZR k * 360) by lra. field. }
  pose proof (NN 180 1%Z ltac:(simpl; lra)) as N1. pose proof (NN 0 0%Z ltac:(simpl; lra)) as N0.
  replace (l1 - l2) with (- (l2 - l1)) in E' by ring. rewrite L_karney6.norm_opp in E'. destruct (Req_EM_T _ _) as [|_] in E'; [contradiction|]. rewrite Rabs_Ropp, (L_karney6.lpos_opp _ N0) in E'.
  assert (RV : forall y x, of_deg deg (atan2d y x) <> 0 -> exists k : Z, of_deg deg (atan2d (- y) (- x)) = of_deg deg (atan2d y x) + half deg + IZR k * full deg).
  { intros y x NZ. destruct (L_karney6.atan2d_reverse y x) as [k K].
    - destruct (Req_dec y 0) as [->|]; [|now left]. destruct (Req_dec x 0) as [->|]; [|now right]. exfalso. apply NZ. rewrite L_karney.atan2d_eq, L_PyMath.atan2_00. destruct deg; cbn [of_deg]; unfold radians, degrees, Rdiv; ring.
    - exists k. rewrite K. destruct deg; cbn [of_deg half full]; [reflexivity|]. unfold radians. field. }
  assert (RV' : forall y x, of_deg deg (atan2d y (- x)) <> 0 -> exists k : Z, of_deg deg (atan2d (- y) x) = of_deg deg (atan2d y (- x)) + half deg + IZR k * full deg) by (intros y x NZ; destruct (RV y (- x) NZ) as [k K]; rewrite Ropp_involutive in K; now exists k).
  destruct (Rlt_dec (Rabs x1) (Rabs x2)) as [S|S]; destruct (Rlt_dec (Rabs x2) (Rabs x1)) as [S'|S']; [lra| | |exfalso; lra].
  - destruct (L_karney6.canon _ _ _ _) as [[s [sa1 ca1]] [sa2 ca2]]. unfold L_karney6.out in E, E'. set (ls := L_karney6.lpos _) in *. set (la := L_karney6.lneg _) in *. injection E as <- <- <-. injection E' as <- <- <-. split; [reflexivity|]. split.
    + replace (sa1 * - ls) with (- (sa1 * ls)) by ring. apply RV'. exact A2.
    + replace (sa2 * - ls) with (- (sa2 * ls)) by ring. apply RV'. exact A1.
  - destruct (L_karney6.canon _ _ _ _) as [[s [sa1 ca1]] [sa2 ca2]]. unfold L_karney6.out in E, E'. set (ls := L_karney6.lpos _) in *. set (la := L_karney6.lneg _) in *. injection E as <- <- <-. injection E' as <- <- <-. split; [reflexivity|]. split.
    + replace (sa2 * - ls) with (- (sa2 * ls)) by ring. apply RV. exact A2.
    + replace (sa1 * - ls) with (- (sa1 * ls)) by ring. apply RV. exact A1.
Qed.
(** So the second azimuth is never the direction of the first point. *)
Lemma half_full deg (k : Z) : half deg + IZR k * full deg <> 0.
Proof.
  intros X. assert (Y : 1 + 2 * IZR k = 0) by (pose proof PI_RGT_0; destruct deg; cbn [half full] in X; [lra|apply Rmult_eq_reg_r with PI; lra]).
  replace (1 + 2 * IZR k) with (IZR (1 + 2 * k)) in Y by (rewrite plus_IZR, mult_IZR; reflexivity). apply eq_IZR in Y. lia.
Qed.
Theorem C91_back_azimuth_refuted : forall lat1 lon1 lat2 lon2 ell deg d az1 az2 d' az1' az2', lat_ok deg lat1 -> lat_ok deg lat2 ->
  Rabs lat1 <> Rabs lat2 -> ~ (exists k : Z, lon2 - lon1 = IZR k * half deg) -> az1 <> 0 -> az2 <> 0 ->
  geodesic_inverse lat1 lon1 lat2 lon2 ell deg = (d, az1, az2) -> geodesic_inverse lat2 lon2 lat1 lon1 ell deg = (d', az1', az2') ->
  az2 <> az1' /\ ~ (exists k : Z, az2 = az1' + IZR k * full deg).
Proof.
  intros lat1 lon1 lat2 lon2 ell deg d az1 az2 d' az1' az2' H1 H2 NE N A1 A2 E E'. destruct (C91_exchange_reverses _ _ _ _ _ _ _ _ _ _ _ _ H1 H2 NE N A1 A2 E E') as (_ & [k K] & _). split.
  - intros X. apply (half_full deg k). lra.
  - intros [j X]. apply (half_full deg (k + j)). rewrite plus_IZR. lra.
Qed.
(** The same for geodesic_direct: on the equator, at every distance, the azimuth returned
    is the one of departure, and the starting point is in the opposite direction. *)
Theorem C91_direct_back_azimuth_refuted : forall lon1 L ell deg, ell_ok ell -> 0 < L < half deg -> L <= half deg * (ell_b ell / ell_a ell) ->
  exists lon2 s az, geodesic_direct 0 lon1 (quarter deg) (ell_a ell * as_rad deg L) ell deg = (0, lon2, quarter deg) /\ wrapped deg (lon1 + L) lon2 /\
    geodesic_inverse 0 lon2 0 lon1 ell deg = (s, - quarter deg, az).
Proof.
  intros lon1 L ell deg H HL HB. destruct (C49_equator lon1 (ell_a ell * as_rad deg L) ell deg H) as [(lon2 & E & W) _]. destruct (L_ell.ell_pos ell H) as [Pb Pa].
  replace (of_deg deg (degrees (ell_a ell * as_rad deg L / ell_a ell))) with L in W.
  - exists lon2. destruct W as [W1 [k W2]]. destruct (C68_equator lon2 L ell deg k H HL HB) as [_ Q]. replace (lon2 - L + IZR k * full deg) with (lon1 + 2 * IZR k * full deg) in Q by (rewrite W2; ring).
    pose proof (C67_longitude_invariance 0 lon2 0 lon1 ell deg 0 0 (2 * k) ltac:(unfold lat_ok; destruct deg; cbn [quarter]; pose proof PI_RGT_0; lra)) as I. rewrite mult_IZR, !Rmult_0_l, !Rplus_0_r in I.
    exists (ell_a ell * as_rad deg L), (- quarter deg). split; [exact E|]. split; [split; [exact W1|exists k; exact W2]|]. rewrite <- I. exact Q.
  - replace (ell_a ell * as_rad deg L / ell_a ell) with (as_rad deg L) by (field; lra). pose proof PI_RGT_0. destruct deg; cbn [of_deg as_rad]; unfold radians, degrees; field; lra.
Qed.
(** The hypotheses are met: from 45 N 0 E to 0 N 90 E on the sphere of radius 1. *)
Example C91_example : exists d az1 az2, geodesic_inverse 45 0 0 90 (Some unit_sphere) true = (d, az1, az2) /\ az1 <> 0 /\ az2 <> 0 /\
  lat_ok true 45 /\ lat_ok true 0 /\ Rabs 45 <> Rabs 0 /\ ~ (exists k : Z, 90 - 0 = IZR k * half true).
Proof.
  assert (O : ell_ok (Some unit_sphere)) by (unfold ell_ok, valid_ell, unit_sphere; cbn [semimajor_axis semiminor_axis flattening thirdflattening eccentricity]; repeat split; lra).
  destruct (geodesic_inverse 45 0 0 90 (Some unit_sphere) true) as [[d az1] az2] eqn:E. exists d, az1, az2. pose proof pi_314 as PL.
  assert (S4 : 7 / 10 < sin (PI / 4)). { rewrite sin_PI4. pose proof (sqrt_lt_R0 2 ltac:(lra)) as Q. assert (Q2 : sqrt 2 < 1415 / 1000) by (rewrite <- (sqrt_pow2 (1415 / 1000)) by lra; apply sqrt_lt_1; lra). apply Rmult_lt_reg_r with (sqrt 2); [exact Q|]. unfold Rdiv at 2. rewrite Rmult_assoc, Rinv_l by lra. lra. }
  assert (C4 : cos (PI / 4) = sin (PI / 4)) by (rewrite sin_PI4, cos_PI4; reflexivity).
  assert (T26 : 0 < / 2 ^ 26 <= 1 / 10) by (clear; simpl; lra).
  assert (A45 : as_rad true 45 = PI / 4) by (cbn [as_rad]; field). assert (A0 : as_rad true 0 = 0) by (cbn [as_rad]; field). assert (A90 : as_rad true 90 = PI / 2) by (cbn [as_rad]; field).
  assert (L1 : lat_ok true 45) by (unfold lat_ok; cbn [quarter]; lra). assert (L2 : lat_ok true 0) by (unfold lat_ok; cbn [quarter]; lra).
  assert (P1 : off_pole true 45) by (split; [exact L1|rewrite A45; lra]). assert (P2 : off_pole true 0) by (split; [exact L2|rewrite A0, cos_0; lra]).
  destruct (C68_sphere 45 0 0 90 (Some unit_sphere) true d az1 az2 O eq_refl P1 P2 E) as (_ & B & HD). cbv zeta in B, HD.
  assert (TH : unit_angle (dir true 45 0) (dir true 0 90) = PI / 2). { unfold unit_angle, dir, unit_normal. rewrite A45, A0, A90, sin_0, cos_0, sin_PI2, cos_PI2. cbn [vdot]. match goal with |- acos ?z = _ => replace z with 0 by ring end. apply acos_0. }
  rewrite TH in HD. specialize (HD ltac:(lra)). split; [reflexivity|]. split; [|split; [|split; [exact L1|split; [exact L2|split]]]].
  - intros ->. destruct B as [B _]. rewrite A0, sin_0, Rmult_0_r in B. unfold dir, unit_normal, east_axis in B. rewrite A0, A90, sin_0, cos_0, sin_PI2, cos_PI2 in B. cbn [vdot] in B. lra.
  - intros ->. unfold heading, arc_heading in HD. rewrite A45, A0, A90, sin_0, cos_0, sin_PI2, cos_PI2 in HD. unfold unit_normal, north_axis, east_axis, vadd, vscale in HD. rewrite sin_0, cos_0, sin_PI2, cos_PI2, C4 in HD. injection HD as HX _ _. lra.
  - rewrite Rabs_R0, Rabs_right by lra. lra.
  - intros [k K]. cbn [half] in K. assert (2 * IZR k = 1) by lra. assert (X : IZR (2 * k) = IZR 1) by (rewrite mult_IZR; simpl; lra). apply eq_IZR in X. lia.
Qed.
