(** Lemmas about ECI/ECEF conversion. *)
From Coq Require Import Psatz.
From Verif Require Import PyMath L_PyMath M_time M_frames M_earth M_eci M_sidereal Spec Spec_time L_time L_earth L_ell L_frames.
Open Scope R_scope.

Lemma eo_matmul3_eq a b : eo_matmul3 a b = matmul3 a b. Proof. reflexivity. Qed.
Lemma eo_matvec3_eq a v : eo_matvec3 a v = matvec3 a v. Proof. reflexivity. Qed.
Lemma eo_transpose3_eq a : eo_transpose3 a = transpose3 a. Proof. reflexivity. Qed.
Ltac uneo := change eo_matmul3 with matmul3 in *; change eo_matvec3 with matvec3 in *;
  change eo_transpose3 with transpose3 in *.

Lemma eo_rx_rot t : is_rotation (eo_rotation_x t).
Proof. unfold eo_rotation_x. unmat. repeat split; try ring; tring1 t. Qed.
Lemma eo_ry_rot t : is_rotation (eo_rotation_y t).
Proof. unfold eo_rotation_y. unmat. repeat split; try ring; tring1 t. Qed.
Lemma eo_rz_rot t : is_rotation (eo_rotation_z t).
Proof. unfold eo_rotation_z. unmat. repeat split; try ring; tring1 t. Qed.
Lemma precession_rot t : is_rotation (precession_matrix t).
Proof. unfold precession_matrix. uneo. repeat apply matmul_rotation; (apply eo_rz_rot || apply eo_ry_rot). Qed.
Lemma nutation_rot t : is_rotation (nutation_matrix t).
Proof.
  unfold nutation_matrix. destruct (nutation_short t). uneo.
  repeat apply matmul_rotation; (apply eo_rz_rot || apply eo_rx_rot).
Qed.
Lemma polar_rot x y : is_rotation (polar_motion_matrix x y).
Proof. unfold polar_motion_matrix. uneo. apply matmul_rotation; (apply eo_ry_rot || apply eo_rx_rot). Qed.

Lemma eci_matrix_rot t d xp yp m : eci_to_ecef_matrix t d xp yp = Ok m -> is_rotation m.
Proof.
  unfold eci_to_ecef_matrix. destruct (bind (utc_with_offset t d) juliandate) as [j1|e]; cbn [bind]; [|discriminate].
  destruct (bind (utc_to_tt t) juliandate) as [j2|e]; cbn [bind]; [|discriminate].
  intros E. injection E as <-. uneo. apply matmul_rotation; [apply polar_rot|].
  apply matmul_rotation; [apply eo_rz_rot|]. apply matmul_rotation; [apply nutation_rot|apply precession_rot].
Qed.

Lemma ok_inj {A} (a b : A) : Ok a = Ok b -> a = b.
Proof. congruence. Qed.
Lemma eci_inv1 x y z t d xp yp x' y' z' :
  eci2ecef x y z t d xp yp = Ok (x', y', z') -> ecef2eci x' y' z' t d xp yp = Ok (x, y, z).
Proof.
  unfold eci2ecef, ecef2eci. destruct (eci_to_ecef_matrix t d xp yp) as [m|e] eqn:E; cbn [bind]; [|discriminate].
  intros H. apply ok_inj in H. apply eci_matrix_rot in E. uneo. rewrite <- H. apply (f_equal Ok). now apply rot_transpose_vec.
Qed.
Lemma eci_inv2 x y z t d xp yp x' y' z' :
  ecef2eci x y z t d xp yp = Ok (x', y', z') -> eci2ecef x' y' z' t d xp yp = Ok (x, y, z).
Proof.
  unfold eci2ecef, ecef2eci. destruct (eci_to_ecef_matrix t d xp yp) as [m|e] eqn:E; cbn [bind]; [|discriminate].
  intros H. apply ok_inj in H. apply eci_matrix_rot in E. uneo. rewrite <- H. apply (f_equal Ok). now apply transpose_rot_vec.
Qed.

(** Rotations preserve dot and cross products. *)
Lemma rot_dot m u v : is_rotation m -> vdot (matvec3 m u) (matvec3 m v) = vdot u v.
Proof.
  intros H. apply transpose_rotation in H.
  destruct m as [[[[a b] c] [[d e] f]] [[g h] i]], u as [[u1 u2] u3], v as [[v1 v2] v3].
  cbv [is_rotation transpose3 tup3 m_at v_at vdot sdet vcross] in H. destruct H as (H1 & H2 & H3 & H4 & H5 & H6 & _).
  unmat.
  replace ((a * u1 + b * u2 + c * u3) * (a * v1 + b * v2 + c * v3) +
    (d * u1 + e * u2 + f * u3) * (d * v1 + e * v2 + f * v3) + (g * u1 + h * u2 + i * u3) * (g * v1 + h * v2 + i * v3))
   with ((a*a+d*d+g*g)*u1*v1 + (b*b+e*e+h*h)*u2*v2 + (c*c+f*f+i*i)*u3*v3
     + (a*b+d*e+g*h)*(u1*v2+u2*v1) + (a*c+d*f+g*i)*(u1*v3+u3*v1) + (b*c+e*f+h*i)*(u2*v3+u3*v2)) by ring.
  rewrite H1, H2, H3, H4, H5, H6. ring.
Qed.
Lemma rot_cross m u v : is_rotation m -> vcross (matvec3 m u) (matvec3 m v) = matvec3 m (vcross u v).
Proof.
  destruct m as [[[[a b] c] [[d e] f]] [[g h] i]], u as [[u1 u2] u3], v as [[v1 v2] v3]. intros H.
  pose proof (rot_cofactor _ _ _ _ _ _ _ _ _ H) as (A1&A2&A3&A4&A5&A6&A7&A8&A9). unmat.
  apply pair3_eq.
  - rewrite A1, A2, A3 at 1. ring.
  - rewrite A4, A5, A6 at 1. ring.
  - rewrite A7, A8, A9 at 1. ring.
Qed.

(** When the conversion is defined. *)
Lemma jd_offset_ok t d : valid_dt t -> in_range (instant t) -> in_range (instant t + timedelta_seconds d)%Z ->
  bind (utc_with_offset t d) juliandate
  = Ok (1721424.5 + IZR (instant t + timedelta_seconds d) / 86400000000).
Proof.
  intros V H1 H2. pose proof (utc_with_offset_spec t d V H1) as S.
  destruct (utc_with_offset t d) as [u|e]; cbn [bind]; [|destruct S; contradiction].
  destruct S as (S1 & S2 & S3 & S4). pose proof (juliandate_spec u S1) as J.
  destruct (juliandate u) as [jd|e]; [|destruct J; contradiction]. destruct J as [_ ->]. rewrite S3. reflexivity.
Qed.
Lemma jd_tt_ok t : valid_dt t -> in_range (instant t) ->
  in_range (instant t + tai_minus_utc (instant t) * 1000000 + 32184000)%Z ->
  bind (utc_to_tt t) juliandate
  = Ok (1721424.5 + IZR (instant t + tai_minus_utc (instant t) * 1000000 + 32184000) / 86400000000).
Proof.
  intros V H1 H2. pose proof (utc_to_tt_spec t V) as S.
  destruct (utc_to_tt t) as [u|e]; cbn [bind]; [|destruct S as [_ S]; exfalso; apply S; split; assumption].
  destruct S as (_ & S1 & S2 & S3 & S4). pose proof (juliandate_spec u S1) as J.
  destruct (juliandate u) as [jd|e]; [|destruct J; contradiction]. destruct J as [_ ->]. rewrite S3. reflexivity.
Qed.
Lemma jd_offset_fail t d : valid_dt t ->
  ~ (in_range (instant t) /\ in_range (instant t + timedelta_seconds d)%Z) ->
  bind (utc_with_offset t d) juliandate = Raise OverflowError.
Proof.
  intros V N. pose proof (ensure_utc_spec t V) as E0. unfold utc_with_offset.
  pose proof (utc_with_offset_spec t d V) as S. unfold utc_with_offset in S.
  destruct (ensure_utc t) as [u|e]; cbn [bind] in *; [|destruct E0 as [-> _]; reflexivity].
  destruct E0 as (_ & _ & _ & E4). specialize (S E4).
  destruct (dt_add u (timedelta_seconds d)) as [v|e]; [|destruct S as [-> _]; reflexivity].
  destruct S as (_ & _ & S3 & S4). rewrite S3 in S4. exfalso. apply N. split; assumption.
Qed.
Lemma jd_tt_fail t : valid_dt t ->
  ~ (in_range (instant t) /\ in_range (instant t + tai_minus_utc (instant t) * 1000000 + 32184000)%Z) ->
  bind (utc_to_tt t) juliandate = Raise OverflowError.
Proof.
  intros V N. pose proof (utc_to_tt_spec t V) as S.
  destruct (utc_to_tt t) as [u|e]; cbn [bind]; [|destruct S as [-> _]; reflexivity].
  destruct S as (S0 & _ & _ & S3 & S4). rewrite S3 in S4. exfalso. apply N. split; assumption.
Qed.
(** Both Julian dates as functions of the instant only. *)
Lemma jd_offset_instant t t' d : valid_dt t -> valid_dt t' -> instant t = instant t' ->
  bind (utc_with_offset t d) juliandate = bind (utc_with_offset t' d) juliandate.
Proof.
  intros V V' E.
  destruct (Classical_Prop.classic (in_range (instant t) /\ in_range (instant t + timedelta_seconds d)%Z)) as [[H1 H2]|N].
  - rewrite (jd_offset_ok t d V H1 H2). rewrite E in H1, H2. rewrite (jd_offset_ok t' d V' H1 H2), E. reflexivity.
  - rewrite (jd_offset_fail t d V N). rewrite E in N. rewrite (jd_offset_fail t' d V' N). reflexivity.
Qed.
Lemma jd_tt_instant t t' : valid_dt t -> valid_dt t' -> instant t = instant t' ->
  bind (utc_to_tt t) juliandate = bind (utc_to_tt t') juliandate.
Proof.
  intros V V' E.
  destruct (Classical_Prop.classic (in_range (instant t) /\
    in_range (instant t + tai_minus_utc (instant t) * 1000000 + 32184000)%Z)) as [[H1 H2]|N].
  - rewrite (jd_tt_ok t V H1 H2). rewrite E in H1, H2. rewrite (jd_tt_ok t' V' H1 H2), E. reflexivity.
  - rewrite (jd_tt_fail t V N). rewrite E in N. rewrite (jd_tt_fail t' V' N). reflexivity.
Qed.
Lemma eci_matrix_instant t t' d xp yp : valid_dt t -> valid_dt t' -> instant t = instant t' ->
  eci_to_ecef_matrix t d xp yp = eci_to_ecef_matrix t' d xp yp.
Proof.
  intros V V' E. unfold eci_to_ecef_matrix.
  rewrite (jd_offset_instant t t' d V V' E), (jd_tt_instant t t' V V' E). reflexivity.
Qed.
(** Structure of the matrix: polar motion applied to the matrix without it. *)
Lemma matmul_assoc a b c : matmul3 (matmul3 a b) c = matmul3 a (matmul3 b c).
Proof.
  destruct a as [[[[a1 a2] a3] [[a4 a5] a6]] [[a7 a8] a9]].
  destruct b as [[[[b1 b2] b3] [[b4 b5] b6]] [[b7 b8] b9]].
  destruct c as [[[[c1 c2] c3] [[c4 c5] c6]] [[c7 c8] c9]].
  cbv [matmul3 tup3 sum3 m_at v_at]. repeat first [ring | apply f_equal2].
Qed.
Lemma polar_zero : polar_motion_matrix 0 0 = sid.
Proof.
  unfold polar_motion_matrix. replace (0 * ARCSEC2RAD) with 0 by ring. unfold eo_rotation_x, eo_rotation_y.
  rewrite sin_0, cos_0. cbv [eo_matmul3 tup3 sum3 m_at v_at sid]. repeat first [ring | apply f_equal2].
Qed.
Lemma matmul_sid m : matmul3 sid m = m.
Proof.
  destruct m as [[[[c1 c2] c3] [[c4 c5] c6]] [[c7 c8] c9]].
  cbv [matmul3 tup3 sum3 m_at v_at sid]. repeat first [ring | apply f_equal2].
Qed.
Lemma eci_matrix_polar t d xp yp :
  eci_to_ecef_matrix t d xp yp = rmap (fun m => matmul3 (polar_motion_matrix xp yp) m) (eci_to_ecef_matrix t d 0 0).
Proof.
  unfold eci_to_ecef_matrix, rmap. destruct (bind (utc_with_offset t d) juliandate) as [j1|e]; cbn [bind]; [|reflexivity].
  destruct (bind (utc_to_tt t) juliandate) as [j2|e]; cbn [bind]; [|reflexivity].
  uneo. rewrite polar_zero, matmul_sid. reflexivity.
Qed.
Lemma eci2ecef_polar x y z t d xp yp :
  eci2ecef x y z t d xp yp = rmap (matvec3 (polar_motion_matrix xp yp)) (eci2ecef x y z t d 0 0).
Proof.
  unfold eci2ecef. rewrite eci_matrix_polar. unfold rmap. destruct (eci_to_ecef_matrix t d 0 0) as [m|e]; cbn [bind]; [|reflexivity].
  uneo. rewrite matmul_vec. reflexivity.
Qed.
(** Polar motion in components. *)
Lemma polar_vec xp yp v : let a := xp * ARCSEC2RAD in let b := yp * ARCSEC2RAD in
  matvec3 (polar_motion_matrix xp yp) v
  = let '(x, y, z) := v in
    let y' := cos b * y + sin b * z in let z' := - sin b * y + cos b * z in
    (cos a * x - sin a * z', y', sin a * x + cos a * z').
Proof.
  destruct v as [[x y] z]. unfold polar_motion_matrix, eo_rotation_x, eo_rotation_y. uneo. unmat. apply pair3_eq; ring.
Qed.
(** Earth rotation: dependence on UT1. *)
Lemma rz_vec t v : matvec3 (eo_rotation_z t) v
  = let '(x, y, z) := v in (cos t * x + sin t * y, - sin t * x + cos t * y, z).
Proof. destruct v as [[x y] z]. unfold eo_rotation_z. unmat. apply pair3_eq; ring. Qed.

(** State vectors *)
Lemma state_inv1 m r p v : is_rotation m ->
  let '(p', v') := apply_state_rotation_scalar m r p v false in
  apply_state_rotation_scalar m r p' v' true = (p, v).
Proof.
  intros H. unfold apply_state_rotation_scalar. uneo. rewrite rot_transpose_vec by assumption. apply (f_equal (fun w => (p, w))).
  set (c := matvec3 r p). set (w := matvec3 m v).
  replace (v_at (tup3 (fun i : nat => v_at w i + v_at c i)) 0 - v_at c 0,
   v_at (tup3 (fun i : nat => v_at w i + v_at c i)) 1 - v_at c 1,
   v_at (tup3 (fun i : nat => v_at w i + v_at c i)) 2 - v_at c 2) with w.
  - unfold w. apply rot_transpose_vec; assumption.
  - destruct w as [[w1 w2] w3], c as [[c1 c2] c3]. unmat. apply pair3_eq; ring.
Qed.
Lemma state_inv2 m r p v : is_rotation m ->
  let '(p', v') := apply_state_rotation_scalar m r p v true in
  apply_state_rotation_scalar m r p' v' false = (p, v).
Proof.
  intros H. unfold apply_state_rotation_scalar. uneo. rewrite !transpose_rot_vec by assumption. apply (f_equal (fun w => (p, w))).
  set (c := matvec3 r _). destruct v as [[v1 v2] v3], c as [[c1 c2] c3]. unmat. apply pair3_eq; ring.
Qed.
