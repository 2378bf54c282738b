(** The model's reduction against Spec_eop. *)
From Coq Require Import Lia Psatz.
From Verif Require Import PyMath L_PyMath M_time M_frames M_earth M_eci M_sidereal Spec Spec_time Spec_eop L_frames L_time L_earth L_eci.
Open Scope R_scope.

Lemma turn_eq k n x : IZR k * ((x + IZR n * 360.0) * PI / 180.0) = IZR k * degree x + IZR (k * n) * (2 * PI).
Proof. rewrite mult_IZR. unfold degree. lra. Qed.
Lemma sin_deg_mod k x : sin (IZR k * (py_mod x 360.0 * PI / 180.0)) = sin (IZR k * degree x).
Proof. destruct (py_mod_congr x 360.0 ltac:(lra)) as [n ->]. rewrite turn_eq. apply sin_period_Z. Qed.
Lemma cos_deg_mod k x : cos (IZR k * (py_mod x 360.0 * PI / 180.0)) = cos (IZR k * degree x).
Proof. destruct (py_mod_congr x 360.0 ltac:(lra)) as [n ->]. rewrite turn_eq. apply cos_period_Z. Qed.
Lemma two_dec : 2.0 = 2. Proof. lra. Qed.

Lemma nutation_value T : nutation_short T = (nut_psi T, nut_eps T).
Proof.
  unfold nutation_short. cbv zeta.
  set (X := 125.04452 - _ + _ + _).
  pose proof (sin_deg_mod 2 (280.4665 + 36000.7698 * T)) as A1. pose proof (cos_deg_mod 2 (280.4665 + 36000.7698 * T)) as B1.
  pose proof (sin_deg_mod 2 (218.3165 + 481267.8813 * T)) as A2. pose proof (cos_deg_mod 2 (218.3165 + 481267.8813 * T)) as B2.
  pose proof (sin_deg_mod 2 X) as A3. pose proof (cos_deg_mod 2 X) as B3.
  pose proof (sin_deg_mod 1 X) as A4. pose proof (cos_deg_mod 1 X) as B4. rewrite !Rmult_1_l in A4, B4.
  rewrite !two_dec, A1, A2, A3, A4, B1, B2, B3, B4.
  assert (HX : degree X = moon_node T) by (unfold moon_node, degree, X; lra).
  rewrite HX. fold (sun_L T). fold (moon_L T). unfold nut_psi, nut_eps, arcsec, ARCSEC2RAD. f_equal; lra.
Qed.

Lemma gmst_value jd : exists k : Z,
  greenwichsrt jd = gmst_seconds ((jd - 2451545) / 36525) / 86400 * (2 * PI) + IZR k * (2 * PI).
Proof.
  unfold greenwichsrt, greenwich_mean_sidereal_time. cbv zeta.
  destruct (py_mod_congr ((67310.54841 + (876600 * 3600 + 8640184.812866) * julian_centuries jd + 0.093104 * julian_centuries jd ^ 2 - 0.0000062 * julian_centuries jd ^ 3) * tau / 86400.0) tau tau_pos) as [k ->].
  exists k. replace ((jd - 2451545) / 36525) with (julian_centuries jd) by (unfold julian_centuries; lra).
  unfold tau, gmst_seconds. lra.
Qed.
Lemma gmst_degree_form T : -1 <= T <= 1 ->
  Rabs (gmst_seconds T / 240
        - (280.46061837 + 360.98564736629 * (36525 * T) + 0.000387933 * T ^ 2 - T ^ 3 / 38710000))
  <= 0.00000015.
Proof.
  intros H. unfold gmst_seconds. assert (0 <= T ^ 2 <= 1) by nra. assert (-1 <= T ^ 3 <= 1).
  { replace (T ^ 3) with (T * T ^ 2) by ring. nra. }
  set (q := T ^ 2) in *. set (c := T ^ 3) in *. clearbody q c. apply Rabs_le. split; lra.
Qed.

Lemma ax_x t v : matvec3 (eo_rotation_x t) v = axes_x t v.
Proof. destruct v as [[x y] z]. unfold eo_rotation_x, axes_x. cbv [matvec3 tup3 sum3 m_at v_at]. apply pair3_eq; ring. Qed.
Lemma ax_y t v : matvec3 (eo_rotation_y t) v = axes_y t v.
Proof. destruct v as [[x y] z]. unfold eo_rotation_y, axes_y. cbv [matvec3 tup3 sum3 m_at v_at]. apply pair3_eq; ring. Qed.
Lemma ax_z t v : matvec3 (eo_rotation_z t) v = axes_z t v.
Proof. destruct v as [[x y] z]. unfold eo_rotation_z, axes_z. cbv [matvec3 tup3 sum3 m_at v_at]. apply pair3_eq; ring. Qed.
Lemma axes_z_period t v k : axes_z (t + IZR k * (2 * PI)) v = axes_z t v.
Proof. destruct v as [[x y] z]. unfold axes_z. now rewrite sin_period_Z, cos_period_Z. Qed.

Lemma gast_value j1 j2 : exists k : Z,
  greenwich_apparent_sidereal_time j1 j2 = gast ((j1 - 2451545) / 36525) ((j2 - 2451545) / 36525) + IZR k * (2 * PI).
Proof.
  unfold greenwich_apparent_sidereal_time.
  destruct (py_mod_congr (greenwich_mean_sidereal_time j1 + equation_of_equinoxes (julian_centuries j2)) tau tau_pos) as [k ->].
  destruct (gmst_value j1) as [n Hn]. unfold greenwichsrt in Hn. rewrite Hn. exists (n + k)%Z.
  replace (julian_centuries j2) with ((j2 - 2451545) / 36525) by (unfold julian_centuries; lra).
  unfold equation_of_equinoxes. rewrite nutation_value. unfold gast. rewrite plus_IZR. unfold tau.
  replace (mean_obliquity ((j2 - 2451545) / 36525)) with (iau_obliquity ((j2 - 2451545) / 36525)).
  2:{ unfold mean_obliquity, iau_obliquity, degree, arcsec, ARCSEC2RAD. lra. }
  ring.
Qed.

Lemma eci2ecef_reduction x y z t d xp yp p : valid_dt t ->
  eci2ecef x y z t d xp yp = Ok p ->
  let ut1 := IZR (instant t + timedelta_seconds d) in
  let tt := IZR (instant t + tai_minus_utc (instant t) * 1000000 + 32184000) in
  p = reduce (centuries ut1) (centuries tt) xp yp (x, y, z).
Proof.
  intros V. unfold eci2ecef, eci_to_ecef_matrix.
  destruct (Classical_Prop.classic (in_range (instant t) /\ in_range (instant t + timedelta_seconds d)%Z)) as [[H1 H2]|N].
  2:{ rewrite (jd_offset_fail t d V N). discriminate. }
  rewrite (jd_offset_ok t d V H1 H2). cbn [bind].
  destruct (Classical_Prop.classic (in_range (instant t + tai_minus_utc (instant t) * 1000000 + 32184000)%Z)) as [H3|N].
  2:{ rewrite (jd_tt_fail t V) by tauto. discriminate. }
  rewrite (jd_tt_ok t V H1 H3). cbn [bind]. intros H. apply ok_inj in H. subst p. cbv zeta.
  set (ut1 := IZR (instant t + timedelta_seconds d)). set (tt := IZR (instant t + _ + _)). clearbody ut1 tt.
  change eo_matvec3 with matvec3. change eo_matmul3 with matmul3. rewrite !matmul_vec.
  destruct (gast_value (1721424.5 + ut1 / 86400000000) (1721424.5 + tt / 86400000000)) as [k ->].
  rewrite ax_z, axes_z_period.
  replace (julian_centuries (1721424.5 + tt / 86400000000)) with (centuries tt) by (unfold julian_centuries, centuries; lra).
  replace ((1721424.5 + tt / 86400000000 - 2451545) / 36525) with (centuries tt) by (unfold centuries; lra).
  replace ((1721424.5 + ut1 / 86400000000 - 2451545) / 36525) with (centuries ut1) by (unfold centuries; lra).
  set (T := centuries tt). set (Tu := centuries ut1). clearbody T Tu.
  unfold nutation_matrix. rewrite nutation_value. unfold precession_matrix, polar_motion_matrix.
  change eo_matmul3 with matmul3. cbv zeta. rewrite !matmul_vec. repeat (rewrite ax_x || rewrite ax_y || rewrite ax_z).
  replace (mean_obliquity T) with (iau_obliquity T).
  2:{ unfold mean_obliquity, iau_obliquity, degree, arcsec, ARCSEC2RAD. lra. }
  assert (AS : forall q, q * ARCSEC2RAD = arcsec q) by (intros; unfold arcsec, ARCSEC2RAD; lra).
  rewrite !AS. reflexivity.
Qed.
