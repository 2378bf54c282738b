(** Properties C08-C17: local level frames, AER, body axes, DCA. *)
From Coq Require Import Psatz.
From Verif Require Import PyMath M_ellipsoid M_ecef M_frames M_enu M_aer M_ned M_nwu M_sez M_body
  M_dca Spec.
From Verif Require L_PyMath L_ell L_frames L_aer L_body.
Open Scope R_scope.

(** ** C08 *)
(** ENU coordinates are the components of (target - observer) along the East,
    North and Up unit vectors at the observer. *)
Theorem C08_ecef2enu_components : forall x y z lat0 lon0 h0 ell deg,
  let phi := as_rad deg lat0 in let lam := as_rad deg lon0 in
  let d := vsub (x, y, z) (geodetic2ecef lat0 lon0 h0 ell deg) in
  ecef2enu x y z lat0 lon0 h0 ell deg
  = (vdot (east_axis phi lam) d, vdot (north_axis phi lam) d, vdot (up_axis phi lam) d).
Proof.
  intros. subst d. unfold ecef2enu. destruct (geodetic2ecef lat0 lon0 h0 ell deg) as [[x0 y0] z0].
  cbn [vsub]. apply L_frames.uvw2enu_spec.
Qed.
Theorem C08_axes_orthonormal : forall phi lam,
  is_rotation (east_axis phi lam, north_axis phi lam, up_axis phi lam).
Proof.
  intros. cbv [is_rotation east_axis north_axis up_axis unit_normal vdot sdet vcross].
  repeat split; L_ell.tring2 phi lam.
Qed.
Theorem C08_ecef_enu_ecef : forall x y z lat0 lon0 h0 ell deg,
  let '(e, n, u) := ecef2enu x y z lat0 lon0 h0 ell deg in
  enu2ecef e n u lat0 lon0 h0 ell deg = (x, y, z).
Proof. exact L_frames.ecef_enu_ecef. Qed.
Theorem C08_enu_ecef_enu : forall e n u lat0 lon0 h0 ell deg,
  let '(x, y, z) := enu2ecef e n u lat0 lon0 h0 ell deg in
  ecef2enu x y z lat0 lon0 h0 ell deg = (e, n, u).
Proof. exact L_frames.enu_ecef_enu. Qed.
Theorem C08_uvw_enu_uvw : forall u v w lat0 lon0 deg,
  let '(e, n, up) := uvw2enu u v w lat0 lon0 deg in enu2uvw e n up lat0 lon0 deg = (u, v, w).
Proof. exact L_frames.uvw_enu_uvw. Qed.
Theorem C08_enu_uvw_enu : forall e n up lat0 lon0 deg,
  let '(u, v, w) := enu2uvw e n up lat0 lon0 deg in uvw2enu u v w lat0 lon0 deg = (e, n, up).
Proof. exact L_frames.enu_uvw_enu. Qed.
Theorem C08_uvw2enu_preserves_dot : forall u v w u' v' w' lat0 lon0 deg,
  vdot (uvw2enu u v w lat0 lon0 deg) (uvw2enu u' v' w' lat0 lon0 deg)
  = vdot (u, v, w) (u', v', w').
Proof. exact L_frames.uvw2enu_dot. Qed.
Theorem C08_enu2uvw_preserves_dot : forall e n u e' n' u' lat0 lon0 deg,
  vdot (enu2uvw e n u lat0 lon0 deg) (enu2uvw e' n' u' lat0 lon0 deg)
  = vdot (e, n, u) (e', n', u').
Proof. exact L_frames.enu2uvw_dot. Qed.
Theorem C08_ecef2enu_isometry : forall x y z x' y' z' lat0 lon0 h0 ell deg,
  vdist3 (ecef2enu x y z lat0 lon0 h0 ell deg) (ecef2enu x' y' z' lat0 lon0 h0 ell deg)
  = vdist3 (x, y, z) (x', y', z').
Proof. exact L_frames.ecef2enu_dist. Qed.
(** The velocity versions coincide with the displacement versions. *)
Theorem C08_vector_versions : forall a b c lat0 lon0 deg,
  ecef2enuv a b c lat0 lon0 deg = uvw2enu a b c lat0 lon0 deg /\
  enu2ecefv a b c lat0 lon0 deg = enu2uvw a b c lat0 lon0 deg.
Proof. intros. split; [apply L_frames.ecef2enuv_uvw2enu | apply L_frames.enu2ecefv_enu2uvw]. Qed.

(** ** C09 *)
Theorem C09_matrices_are_rotations : forall lat0 lon0 deg,
  is_rotation (ecef2enu_matrix lat0 lon0 deg) /\ is_rotation (enu2ecef_matrix lat0 lon0 deg) /\
  is_rotation (ecef2ned_matrix lat0 lon0 deg) /\ is_rotation (ned2ecef_matrix lat0 lon0 deg) /\
  is_rotation (ecef2sez_matrix lat0 lon0 deg) /\ is_rotation (sez2ecef_matrix lat0 lon0 deg) /\
  is_rotation (ecef2nwu_matrix lat0 lon0 deg) /\ is_rotation (nwu2ecef_matrix lat0 lon0 deg).
Proof.
  intros.
  refine (conj _ (conj _ (conj _ (conj _ (conj _ (conj _ (conj _ _)))))));
  try apply L_frames.transpose_rotation;
  first [apply L_frames.ecef2enu_rot | apply L_frames.ecef2ned_rot
        | apply L_frames.ecef2sez_rot | apply L_frames.ecef2nwu_rot].
Qed.
Theorem C09_matrices_agree_with_vector_functions : forall a b c lat0 lon0 deg,
  smulv (ecef2enu_matrix lat0 lon0 deg) (a, b, c) = ecef2enuv a b c lat0 lon0 deg /\
  smulv (enu2ecef_matrix lat0 lon0 deg) (a, b, c) = enu2ecefv a b c lat0 lon0 deg /\
  smulv (ecef2ned_matrix lat0 lon0 deg) (a, b, c) = ecef2nedv a b c lat0 lon0 deg /\
  smulv (ned2ecef_matrix lat0 lon0 deg) (a, b, c) = enu2ecefv b a (- c) lat0 lon0 deg /\
  smulv (ecef2sez_matrix lat0 lon0 deg) (a, b, c) = ecef2sezv a b c lat0 lon0 deg /\
  smulv (sez2ecef_matrix lat0 lon0 deg) (a, b, c) = sez2ecefv a b c lat0 lon0 deg /\
  smulv (ecef2nwu_matrix lat0 lon0 deg) (a, b, c) = ecef2nwuv a b c lat0 lon0 deg /\
  smulv (nwu2ecef_matrix lat0 lon0 deg) (a, b, c) = nwu2ecefv a b c lat0 lon0 deg.
Proof.
  intros. rewrite <- !L_frames.matvec_smulv.
  refine (conj _ (conj _ (conj _ (conj _ (conj _ (conj _ (conj _ _))))))).
  - apply L_frames.enu_matrix_v.
  - apply L_frames.enu_matrix_inv_v.
  - apply L_frames.ned_matrix_v.
  - rewrite L_frames.enu2ecefv_enu2uvw; apply L_frames.ned_matrix_inv_v.
  - apply L_frames.sez_matrix_v.
  - apply L_frames.sez_matrix_inv_v.
  - apply L_frames.nwu_matrix_v.
  - apply L_frames.nwu_matrix_inv_v.
Qed.
(** Rows of the matrices are the named axes. *)
Theorem C09_rows_are_axes : forall lat0 lon0 deg,
  let E := east_axis (as_rad deg lat0) (as_rad deg lon0) in
  let N := north_axis (as_rad deg lat0) (as_rad deg lon0) in
  let U := up_axis (as_rad deg lat0) (as_rad deg lon0) in
  ecef2enu_matrix lat0 lon0 deg = (E, N, U) /\
  ecef2ned_matrix lat0 lon0 deg = (N, E, vscale (-1) U) /\
  ecef2sez_matrix lat0 lon0 deg = (vscale (-1) N, E, U) /\
  ecef2nwu_matrix lat0 lon0 deg = (N, vscale (-1) E, U).
Proof.
  intros. subst E N U. rewrite (L_ell.as_rad_rad_in deg lat0), (L_ell.as_rad_rad_in deg lon0).
  unfold ecef2enu_matrix, ecef2ned_matrix, ecef2sez_matrix, ecef2nwu_matrix.
  L_frames.unmat. cbv [east_axis north_axis up_axis unit_normal vscale].
  refine (conj _ (conj _ (conj _ _)));
  (apply f_equal2; [apply f_equal2|]); apply L_frames.pair3_eq; ring.
Qed.

(** ** C10 *)
Theorem C10_ned : forall lat0 lon0 h0 ell deg,
  let E := east_axis (as_rad deg lat0) (as_rad deg lon0) in
  let N := north_axis (as_rad deg lat0) (as_rad deg lon0) in
  let U := up_axis (as_rad deg lat0) (as_rad deg lon0) in
  let P0 := geodetic2ecef lat0 lon0 h0 ell deg in
  (forall x y z, let v := vsub (x, y, z) P0 in
     ecef2ned x y z lat0 lon0 h0 ell deg = (vdot N v, vdot E v, - vdot U v)) /\
  (forall n e d, ned2ecef n e d lat0 lon0 h0 ell deg
     = vadd P0 (vadd (vscale n N) (vadd (vscale e E) (vscale (- d) U)))) /\
  (forall lat lon h, geodetic2ned lat lon h lat0 lon0 h0 ell deg
     = let '(x, y, z) := geodetic2ecef lat lon h ell deg in ecef2ned x y z lat0 lon0 h0 ell deg) /\
  (forall n e d, ned2geodetic n e d lat0 lon0 h0 ell deg
     = let '(x, y, z) := ned2ecef n e d lat0 lon0 h0 ell deg in ecef2geodetic x y z ell deg) /\
  (forall a b c, ecef2nedv a b c lat0 lon0 deg
     = (vdot N (a, b, c), vdot E (a, b, c), - vdot U (a, b, c))).
Proof.
  intros. refine (conj _ (conj _ (conj _ (conj _ _)))); intros.
  - unfold ecef2ned. rewrite C08_ecef2enu_components. reflexivity.
  - unfold ned2ecef, enu2ecef. rewrite L_frames.enu2uvw_spec. fold E N U. fold P0.
    destruct P0 as [[x0 y0] z0], E as [[e1 e2] e3], N as [[n1 n2] n3], U as [[u1 u2] u3].
    unfold vadd, vscale. apply L_frames.pair3_eq; ring.
  - unfold geodetic2ned. rewrite L_frames.geodetic2enu_ecef2enu.
    destruct (geodetic2ecef lat lon h ell deg) as [[x y] z]. reflexivity.
  - reflexivity.
  - unfold ecef2nedv. rewrite L_frames.ecef2enuv_uvw2enu, L_frames.uvw2enu_spec. reflexivity.
Qed.
Theorem C10_nwu : forall lat0 lon0 h0 ell deg,
  let E := east_axis (as_rad deg lat0) (as_rad deg lon0) in
  let N := north_axis (as_rad deg lat0) (as_rad deg lon0) in
  let U := up_axis (as_rad deg lat0) (as_rad deg lon0) in
  let P0 := geodetic2ecef lat0 lon0 h0 ell deg in
  (forall x y z, let v := vsub (x, y, z) P0 in
     ecef2nwu x y z lat0 lon0 h0 ell deg = (vdot N v, - vdot E v, vdot U v)) /\
  (forall n w u, nwu2ecef n w u lat0 lon0 h0 ell deg
     = vadd P0 (vadd (vscale n N) (vadd (vscale (- w) E) (vscale u U)))) /\
  (forall lat lon h, geodetic2nwu lat lon h lat0 lon0 h0 ell deg
     = let '(x, y, z) := geodetic2ecef lat lon h ell deg in ecef2nwu x y z lat0 lon0 h0 ell deg) /\
  (forall n w u, nwu2geodetic n w u lat0 lon0 h0 ell deg
     = let '(x, y, z) := nwu2ecef n w u lat0 lon0 h0 ell deg in ecef2geodetic x y z ell deg) /\
  (forall a b c, ecef2nwuv a b c lat0 lon0 deg
     = (vdot N (a, b, c), - vdot E (a, b, c), vdot U (a, b, c))).
Proof.
  intros. refine (conj _ (conj _ (conj _ (conj _ _)))); intros.
  - unfold ecef2nwu. rewrite C08_ecef2enu_components. reflexivity.
  - unfold nwu2ecef, enu2ecef. rewrite L_frames.enu2uvw_spec. fold E N U. fold P0.
    destruct P0 as [[x0 y0] z0], E as [[e1 e2] e3], N as [[n1 n2] n3], U as [[u1 u2] u3].
    unfold vadd, vscale. apply L_frames.pair3_eq; ring.
  - unfold geodetic2nwu. rewrite L_frames.geodetic2enu_ecef2enu.
    destruct (geodetic2ecef lat lon h ell deg) as [[x y] z]. reflexivity.
  - reflexivity.
  - unfold ecef2nwuv. rewrite L_frames.ecef2enuv_uvw2enu, L_frames.uvw2enu_spec. reflexivity.
Qed.
Theorem C10_sez : forall lat0 lon0 h0 ell deg,
  let E := east_axis (as_rad deg lat0) (as_rad deg lon0) in
  let N := north_axis (as_rad deg lat0) (as_rad deg lon0) in
  let U := up_axis (as_rad deg lat0) (as_rad deg lon0) in
  let P0 := geodetic2ecef lat0 lon0 h0 ell deg in
  (forall x y z, let v := vsub (x, y, z) P0 in
     ecef2sez x y z lat0 lon0 h0 ell deg = (- vdot N v, vdot E v, vdot U v)) /\
  (forall s e z, sez2ecef s e z lat0 lon0 h0 ell deg
     = vadd P0 (vadd (vscale (- s) N) (vadd (vscale e E) (vscale z U)))) /\
  (forall lat lon h, geodetic2sez lat lon h lat0 lon0 h0 ell deg
     = let '(x, y, z) := geodetic2ecef lat lon h ell deg in ecef2sez x y z lat0 lon0 h0 ell deg) /\
  (forall s e z, sez2geodetic s e z lat0 lon0 h0 ell deg
     = let '(x, y, z) := sez2ecef s e z lat0 lon0 h0 ell deg in ecef2geodetic x y z ell deg) /\
  (forall a b c, ecef2sezv a b c lat0 lon0 deg
     = (- vdot N (a, b, c), vdot E (a, b, c), vdot U (a, b, c))).
Proof.
  intros. refine (conj _ (conj _ (conj _ (conj _ _)))); intros.
  - unfold ecef2sez. rewrite C08_ecef2enu_components. reflexivity.
  - unfold sez2ecef, enu2ecef. rewrite L_frames.enu2uvw_spec. fold E N U. fold P0.
    destruct P0 as [[x0 y0] z0], E as [[e1 e2] e3], N as [[n1 n2] n3], U as [[u1 u2] u3].
    unfold vadd, vscale. apply L_frames.pair3_eq; ring.
  - unfold geodetic2sez. rewrite L_frames.geodetic2enu_ecef2enu.
    destruct (geodetic2ecef lat lon h ell deg) as [[x y] z]. reflexivity.
  - reflexivity.
  - unfold ecef2sezv. rewrite L_frames.ecef2enuv_uvw2enu, L_frames.uvw2enu_spec. reflexivity.
Qed.
(** Round trips to ECEF. *)
Theorem C10_roundtrips : forall a b c lat0 lon0 h0 ell deg,
  (let '(x, y, z) := ned2ecef a b c lat0 lon0 h0 ell deg in
     ecef2ned x y z lat0 lon0 h0 ell deg = (a, b, c)) /\
  (let '(n, e, d) := ecef2ned a b c lat0 lon0 h0 ell deg in
     ned2ecef n e d lat0 lon0 h0 ell deg = (a, b, c)) /\
  (let '(x, y, z) := nwu2ecef a b c lat0 lon0 h0 ell deg in
     ecef2nwu x y z lat0 lon0 h0 ell deg = (a, b, c)) /\
  (let '(n, w, u) := ecef2nwu a b c lat0 lon0 h0 ell deg in
     nwu2ecef n w u lat0 lon0 h0 ell deg = (a, b, c)) /\
  (let '(x, y, z) := sez2ecef a b c lat0 lon0 h0 ell deg in
     ecef2sez x y z lat0 lon0 h0 ell deg = (a, b, c)) /\
  (let '(s, e, z) := ecef2sez a b c lat0 lon0 h0 ell deg in
     sez2ecef s e z lat0 lon0 h0 ell deg = (a, b, c)).
Proof.
  intros. refine (conj _ (conj _ (conj _ (conj _ (conj _ _))))).
  - apply L_body.ned_ecef_ned.
  - apply L_body.ecef_ned_ecef.
  - apply L_body.nwu_ecef_nwu.
  - apply L_body.ecef_nwu_ecef.
  - apply L_body.sez_ecef_sez.
  - apply L_body.ecef_sez_ecef.
Qed.
(** AER of the relabelled frames: ned2aer and friends undo aer2ned and friends,
    and agree with the ENU version on the relabelled vector. *)
Theorem C10_aer : forall az el r deg,
  0 < r -> 0 <= az < full deg -> - quarter deg < el < quarter deg ->
  not_tiny3 (aer2enu az el r deg) ->
  (let '(n, e, d) := aer2ned az el r deg in ned2aer n e d deg = (az, el, r)) /\
  (let '(n, w, u) := aer2nwu az el r deg in nwu2aer n w u deg = (az, el, r)) /\
  (let '(s, e, z) := aer2sez az el r deg in sez2aer s e z deg = (az, el, r)) /\
  (let '(e, n, u) := aer2enu az el r deg in
     aer2ned az el r deg = (n, e, - u) /\ aer2nwu az el r deg = (n, - e, u) /\
     aer2sez az el r deg = (- n, e, u)).
Proof.
  intros az el r deg H1 H2 H3 H4. pose proof (L_aer.enu2aer_aer2enu az el r deg H1 H2 H3 H4) as K.
  unfold aer2ned, aer2nwu, aer2sez, ned2aer, nwu2aer, sez2aer.
  destruct (aer2enu az el r deg) as [[e n] u]. rewrite !Ropp_involutive.
  repeat split; exact K.
Qed.

(** ** C11 *)
Theorem C11_observer_is_origin : forall lat0 lon0 h0 ell deg,
  let '(x, y, z) := geodetic2ecef lat0 lon0 h0 ell deg in
  ecef2enu x y z lat0 lon0 h0 ell deg = (0, 0, 0).
Proof. exact L_frames.ecef2enu_observer. Qed.
Theorem C11_overhead_target : forall lat0 lon0 h h0 ell deg,
  geodetic2enu lat0 lon0 h lat0 lon0 h0 ell deg = (0, 0, h - h0) /\
  geodetic2ned lat0 lon0 h lat0 lon0 h0 ell deg = (0, 0, - (h - h0)) /\
  geodetic2nwu lat0 lon0 h lat0 lon0 h0 ell deg = (0, 0, h - h0) /\
  geodetic2sez lat0 lon0 h lat0 lon0 h0 ell deg = (0, 0, h - h0).
Proof.
  intros. unfold geodetic2ned, geodetic2nwu, geodetic2sez.
  rewrite L_frames.geodetic2enu_vertical. repeat split; apply L_frames.pair3_eq; ring.
Qed.
(** geodetic2enu is the composition through ECEF. *)
Theorem C11_geodetic2enu_via_ecef : forall lat lon h lat0 lon0 h0 ell deg,
  geodetic2enu lat lon h lat0 lon0 h0 ell deg
  = let '(x, y, z) := geodetic2ecef lat lon h ell deg in ecef2enu x y z lat0 lon0 h0 ell deg.
Proof. exact L_frames.geodetic2enu_ecef2enu. Qed.

(** ** C12 *)
Theorem C12_ranges : forall e n u deg,
  let '(az, el, r) := enu2aer e n u deg in
  0 <= az < full deg /\ - quarter deg <= el <= quarter deg /\ 0 <= r.
Proof. exact L_aer.enu2aer_ranges. Qed.
Theorem C12_enu_aer_enu : forall e n u deg,
  let '(az, el, r) := enu2aer e n u deg in
  within (1 / 1000) (aer2enu az el r deg) (e, n, u) /\
  (not_tiny3 (e, n, u) -> aer2enu az el r deg = (e, n, u)).
Proof.
  intros. pose proof (L_aer.aer2enu_enu2aer_trim e n u deg) as H.
  destruct (enu2aer e n u deg) as [[az el] r]. rewrite H. split.
  - apply L_aer.within_trim.
  - intros (A & B & C). now rewrite !L_aer.trim_not_tiny.
Qed.
Theorem C12_aer_enu_aer : forall az el r deg,
  0 < r -> 0 <= az < full deg -> - quarter deg < el < quarter deg ->
  not_tiny3 (aer2enu az el r deg) ->
  let '(e, n, u) := aer2enu az el r deg in enu2aer e n u deg = (az, el, r).
Proof. exact L_aer.enu2aer_aer2enu. Qed.
Example C12_hypotheses_met :
  0 < 10 /\ 0 <= 0 < full true /\ - quarter true < 0 < quarter true /\
  not_tiny3 (aer2enu 0 0 10 true).
Proof.
  unfold full, quarter, aer2enu, not_tiny3, not_tiny. cbn [rad_in].
  rewrite L_PyMath.radians_0, cos_0, sin_0. repeat split; try lra.
  right. rewrite Rabs_right; lra.
Qed.

(** ** C13 *)
Theorem C13_range_is_distance : forall x y z lat0 lon0 h0 ell deg,
  let '(_, _, r) := ecef2aer x y z lat0 lon0 h0 ell deg in
  let d := vdist3 (x, y, z) (geodetic2ecef lat0 lon0 h0 ell deg) in
  Rabs (r - d) < sqrt 3 / 1000 /\
  (not_tiny3 (ecef2enu x y z lat0 lon0 h0 ell deg) -> r = d).
Proof. exact L_aer.ecef2aer_range. Qed.
Theorem C13_range_is_distance_geodetic : forall lat lon h lat0 lon0 h0 ell deg,
  let '(_, _, r) := geodetic2aer lat lon h lat0 lon0 h0 ell deg in
  let d := vdist3 (geodetic2ecef lat lon h ell deg) (geodetic2ecef lat0 lon0 h0 ell deg) in
  Rabs (r - d) < sqrt 3 / 1000 /\
  (not_tiny3 (geodetic2enu lat lon h lat0 lon0 h0 ell deg) -> r = d).
Proof. exact L_aer.geodetic2aer_range. Qed.
Theorem C13_range_symmetric : forall lat1 lon1 h1 lat2 lon2 h2 ell deg,
  let '(_, _, r12) := geodetic2aer lat2 lon2 h2 lat1 lon1 h1 ell deg in
  let '(_, _, r21) := geodetic2aer lat1 lon1 h1 lat2 lon2 h2 ell deg in
  Rabs (r12 - r21) < 2 * sqrt 3 / 1000 /\
  (not_tiny3 (geodetic2enu lat2 lon2 h2 lat1 lon1 h1 ell deg) ->
   not_tiny3 (geodetic2enu lat1 lon1 h1 lat2 lon2 h2 ell deg) -> r12 = r21).
Proof. exact L_aer.range_symmetric. Qed.
Example C13_hypotheses_met : not_tiny3 (geodetic2enu 10 20 5 10 20 1 None true).
Proof.
  rewrite L_frames.geodetic2enu_vertical. unfold not_tiny3, not_tiny.
  repeat split; try lra. right. rewrite Rabs_right; lra.
Qed.

(** ** C14 *)
Theorem C14_aer_ecef_aer : forall az el r lat0 lon0 h0 ell deg,
  0 < r -> 0 <= az < full deg -> - quarter deg < el < quarter deg ->
  not_tiny3 (aer2enu az el r deg) ->
  let '(x, y, z) := aer2ecef az el r lat0 lon0 h0 ell deg in
  ecef2aer x y z lat0 lon0 h0 ell deg = (az, el, r).
Proof. exact L_aer.ecef2aer_aer2ecef. Qed.
Theorem C14_ecef_aer_ecef : forall x y z lat0 lon0 h0 ell deg,
  let '(az, el, r) := ecef2aer x y z lat0 lon0 h0 ell deg in
  vdist3 (aer2ecef az el r lat0 lon0 h0 ell deg) (x, y, z) < sqrt 3 / 1000 /\
  (not_tiny3 (ecef2enu x y z lat0 lon0 h0 ell deg) ->
   aer2ecef az el r lat0 lon0 h0 ell deg = (x, y, z)).
Proof. exact L_aer.aer2ecef_ecef2aer. Qed.

(** ** C15 *)
Open Scope string_scope.
Theorem C15_body_matrix_rotation : forall yaw pitch roll deg,
  exists m, body_matrix yaw pitch roll "zyx" deg = Ok m /\ is_rotation m.
Proof. exact L_body.ned2body_ok. Qed.
Theorem C15_local_body_local : forall a b c yaw pitch roll deg,
  bind (ned2body a b c yaw pitch roll "zyx" deg)
    (fun '(x, y, z) => body2ned x y z yaw pitch roll "zyx" deg) = Ok (a, b, c) /\
  bind (enu2body a b c yaw pitch roll "zyx" deg)
    (fun '(x, y, z) => body2enu x y z yaw pitch roll "zyx" deg) = Ok (a, b, c) /\
  bind (sez2body a b c yaw pitch roll "zyx" deg)
    (fun '(x, y, z) => body2sez x y z yaw pitch roll "zyx" deg) = Ok (a, b, c) /\
  bind (nwu2body a b c yaw pitch roll "zyx" deg)
    (fun '(x, y, z) => body2nwu x y z yaw pitch roll "zyx" deg) = Ok (a, b, c).
Proof.
  intros. repeat split; [apply L_body.ned_body_ned | apply L_body.enu_body_enu
    | apply L_body.sez_body_sez | apply L_body.nwu_body_nwu].
Qed.
Theorem C15_body_local_body : forall a b c yaw pitch roll deg,
  bind (body2ned a b c yaw pitch roll "zyx" deg)
    (fun '(x, y, z) => ned2body x y z yaw pitch roll "zyx" deg) = Ok (a, b, c) /\
  bind (body2enu a b c yaw pitch roll "zyx" deg)
    (fun '(x, y, z) => enu2body x y z yaw pitch roll "zyx" deg) = Ok (a, b, c) /\
  bind (body2sez a b c yaw pitch roll "zyx" deg)
    (fun '(x, y, z) => sez2body x y z yaw pitch roll "zyx" deg) = Ok (a, b, c) /\
  bind (body2nwu a b c yaw pitch roll "zyx" deg)
    (fun '(x, y, z) => nwu2body x y z yaw pitch roll "zyx" deg) = Ok (a, b, c).
Proof.
  intros. repeat split; [apply L_body.body_ned_body | apply L_body.body_enu_body
    | apply L_body.body_sez_body | apply L_body.body_nwu_body].
Qed.
Theorem C15_ecef_body_ecef : forall x y z lat0 lon0 h0 yaw pitch roll ell frame deg,
  In frame ["ned"; "enu"; "sez"; "nwu"] ->
  bind (ecef2body x y z lat0 lon0 h0 yaw pitch roll ell frame "zyx" deg)
    (fun '(xb, yb, zb) => body2ecef xb yb zb lat0 lon0 h0 yaw pitch roll ell frame "zyx" deg)
  = Ok (x, y, z).
Proof. exact L_body.ecef_body_ecef. Qed.
Theorem C15_body_ecef_body : forall xb yb zb lat0 lon0 h0 yaw pitch roll ell frame deg,
  In frame ["ned"; "enu"; "sez"; "nwu"] ->
  bind (body2ecef xb yb zb lat0 lon0 h0 yaw pitch roll ell frame "zyx" deg)
    (fun '(x, y, z) => ecef2body x y z lat0 lon0 h0 yaw pitch roll ell frame "zyx" deg)
  = Ok (xb, yb, zb).
Proof. exact L_body.body_ecef_body. Qed.
Theorem C15_vector_roundtrips : forall x y z lat0 lon0 yaw pitch roll frame deg,
  In frame ["ned"; "enu"; "sez"; "nwu"] ->
  bind (ecef2bodyv x y z lat0 lon0 yaw pitch roll frame "zyx" deg)
    (fun '(xb, yb, zb) => body2ecefv xb yb zb lat0 lon0 yaw pitch roll frame "zyx" deg)
  = Ok (x, y, z) /\
  bind (body2ecefv x y z lat0 lon0 yaw pitch roll frame "zyx" deg)
    (fun '(a, b, c) => ecef2bodyv a b c lat0 lon0 yaw pitch roll frame "zyx" deg)
  = Ok (x, y, z).
Proof. intros. split; [now apply L_body.ecef_bodyv_ecef | now apply L_body.body_ecefv_body]. Qed.
Theorem C15_frame_choice_irrelevant : forall f1 f2 a b c lat0 lon0 h0 yaw pitch roll ell s deg,
  In f1 ["ned"; "enu"; "sez"; "nwu"] -> In f2 ["ned"; "enu"; "sez"; "nwu"] ->
  ecef2body a b c lat0 lon0 h0 yaw pitch roll ell f1 s deg
    = ecef2body a b c lat0 lon0 h0 yaw pitch roll ell f2 s deg /\
  body2ecef a b c lat0 lon0 h0 yaw pitch roll ell f1 s deg
    = body2ecef a b c lat0 lon0 h0 yaw pitch roll ell f2 s deg /\
  geodetic2body a b c lat0 lon0 h0 yaw pitch roll ell f1 s deg
    = geodetic2body a b c lat0 lon0 h0 yaw pitch roll ell f2 s deg /\
  body2geodetic a b c lat0 lon0 h0 yaw pitch roll ell f1 s deg
    = body2geodetic a b c lat0 lon0 h0 yaw pitch roll ell f2 s deg /\
  ecef2bodyv a b c lat0 lon0 yaw pitch roll f1 s deg
    = ecef2bodyv a b c lat0 lon0 yaw pitch roll f2 s deg.
Proof.
  intros f1 f2 a b c lat0 lon0 h0 yaw pitch roll ell s deg H1 H2.
  rewrite (L_body.ecef2body_frame a b c lat0 lon0 h0 yaw pitch roll ell f1 s deg H1),
    (L_body.ecef2body_frame a b c lat0 lon0 h0 yaw pitch roll ell f2 s deg H2),
    (L_body.body2ecef_frame a b c lat0 lon0 h0 yaw pitch roll ell f1 s deg H1),
    (L_body.body2ecef_frame a b c lat0 lon0 h0 yaw pitch roll ell f2 s deg H2),
    (L_body.geodetic2body_frame a b c lat0 lon0 h0 yaw pitch roll ell f1 s deg H1),
    (L_body.geodetic2body_frame a b c lat0 lon0 h0 yaw pitch roll ell f2 s deg H2),
    (L_body.body2geodetic_frame a b c lat0 lon0 h0 yaw pitch roll ell f1 s deg H1),
    (L_body.body2geodetic_frame a b c lat0 lon0 h0 yaw pitch roll ell f2 s deg H2).
  unfold ecef2bodyv.
  rewrite (L_body.ecef2body_rotation_frame lat0 lon0 yaw pitch roll s f1 deg H1),
    (L_body.ecef2body_rotation_frame lat0 lon0 yaw pitch roll s f2 deg H2).
  repeat split; reflexivity.
Qed.
Theorem C15_unsupported_raise : forall frame s,
  ~ In frame ["ned"; "enu"; "sez"; "nwu"] \/ s <> "zyx" ->
  forall x y z lat0 lon0 h0 yaw pitch roll ell deg,
  ecef2body x y z lat0 lon0 h0 yaw pitch roll ell frame s deg = Raise ValueError /\
  body2ecef x y z lat0 lon0 h0 yaw pitch roll ell frame s deg = Raise ValueError /\
  geodetic2body x y z lat0 lon0 h0 yaw pitch roll ell frame s deg = Raise ValueError /\
  body2geodetic x y z lat0 lon0 h0 yaw pitch roll ell frame s deg = Raise ValueError /\
  ecef2bodyv x y z lat0 lon0 yaw pitch roll frame s deg = Raise ValueError /\
  body2ecefv x y z lat0 lon0 yaw pitch roll frame s deg = Raise ValueError.
Proof. intros frame s [H|H]; intros; [now apply L_body.bad_frame | now apply L_body.bad_sequence]. Qed.

(** ** C16 *)
Theorem C16_zero_attitude_is_ned : forall n e d deg,
  ned2body n e d 0 0 0 "zyx" deg = Ok (n, e, d) /\ body2ned n e d 0 0 0 "zyx" deg = Ok (n, e, d).
Proof.
  intros. assert (B : forall a b c, body2ned a b c 0 0 0 "zyx" deg = Ok (a, b, c)).
  { intros. rewrite L_body.body2ned_val. rewrite (L_ell.as_rad_rad_in deg 0), L_aer.rad_in_0.
    rewrite sin_0, cos_0. unfold vadd, vscale. f_equal. apply L_frames.pair3_eq; ring. }
  split; [|apply B].
  pose proof (L_body.ned_body_ned n e d 0 0 0 deg) as H.
  destruct (ned2body n e d 0 0 0 "zyx" deg) as [[[x y] z]|]; [|discriminate].
  cbn [bind] in H. now rewrite B in H.
Qed.
(** The nose (body x axis) points at azimuth [yaw] and elevation [pitch]. *)
Theorem C16_nose_direction : forall yaw pitch roll deg,
  body2ned 1 0 0 yaw pitch roll "zyx" deg = Ok (aer2ned yaw pitch 1 deg).
Proof.
  intros. rewrite L_body.body2ned_val. unfold aer2ned, aer2enu.
  rewrite (L_ell.as_rad_rad_in deg yaw), (L_ell.as_rad_rad_in deg pitch).
  unfold vadd, vscale. f_equal. apply L_frames.pair3_eq; ring.
Qed.
(** The right wing (body y axis) is the horizontal direction 90 degrees clockwise
    of the nose, turned downwards by the roll angle. *)
Theorem C16_right_wing : forall yaw pitch roll deg,
  let Y := as_rad deg yaw in let P := as_rad deg pitch in let Q := as_rad deg roll in
  exists n e d, body2ned 0 1 0 yaw pitch roll "zyx" deg = Ok (n, e, d) /\
    d = sin Q * cos P /\
    (Q = 0 -> (n, e, d) = (cos (Y + PI / 2), sin (Y + PI / 2), 0)).
Proof.
  intros. rewrite L_body.body2ned_val. fold Y P Q. unfold vadd, vscale.
  do 3 eexists. split; [reflexivity|]. split; [ring|].
  intros ->. rewrite sin_0, cos_0, cos_plus, sin_plus, cos_PI2, sin_PI2.
  apply L_frames.pair3_eq; ring.
Qed.
(** Signs for small positive angles. *)
Theorem C16_positive_signs : forall a deg, 0 < a < quarter deg ->
  (exists n e d, body2ned 1 0 0 a 0 0 "zyx" deg = Ok (n, e, d) /\ 0 < n /\ 0 < e /\ d = 0)%R /\
  (exists n e d, body2ned 1 0 0 0 a 0 "zyx" deg = Ok (n, e, d) /\ 0 < n /\ e = 0 /\ d < 0)%R /\
  (exists n e d, body2ned 0 1 0 0 0 a "zyx" deg = Ok (n, e, d) /\ n = 0 /\ 0 < e /\ 0 < d)%R.
Proof.
  intros a deg Ha. rewrite !L_body.body2ned_val.
  rewrite (L_ell.as_rad_rad_in deg 0), (L_ell.as_rad_rad_in deg a), L_aer.rad_in_0.
  assert (Hr : 0 < rad_in deg a < PI / 2).
  { rewrite <- (L_aer.rad_in_0 deg), <- (L_aer.rad_in_quarter deg).
    split; apply L_aer.rad_in_lt; lra. }
  set (A := rad_in deg a) in *.
  assert (0 < cos A) by (apply cos_gt_0; lra).
  assert (0 < sin A) by (apply sin_gt_0; lra).
  rewrite sin_0, cos_0. unfold vadd, vscale.
  repeat split; (do 3 eexists; split; [reflexivity|]); repeat split; lra.
Qed.
Example C16_hypotheses_met : 0 < 10 < quarter true. Proof. unfold quarter; lra. Qed.

(** ** C17 *)
Theorem C17_roundtrips : forall a b c heading deg,
  (let '(d, cr, ab) := enu2dca a b c heading deg in dca2enu d cr ab heading deg = (a, b, c)) /\
  (let '(e, n, u) := dca2enu a b c heading deg in enu2dca e n u heading deg = (a, b, c)) /\
  (let '(d, cr, ab) := ned2dca a b c heading deg in dca2ned d cr ab heading deg = (a, b, c)) /\
  (let '(n, e, d) := dca2ned a b c heading deg in ned2dca n e d heading deg = (a, b, c)).
Proof.
  intros. refine (conj _ (conj _ (conj _ _))).
  - apply L_body.enu_dca_enu.
  - apply L_body.dca_enu_dca.
  - apply L_body.ned_dca_ned.
  - apply L_body.dca_ned_dca.
Qed.
(** Downrange is the component along the horizontal direction of azimuth
    [heading]; cross-range the one 90 degrees to its left; Above is Up. *)
Theorem C17_components : forall e n u heading deg,
  let t := as_rad deg heading in
  enu2dca e n u heading deg
  = (vdot (sin t, cos t, 0) (e, n, u),
     vdot (sin (t - PI / 2), cos (t - PI / 2), 0) (e, n, u), u).
Proof.
  intros. unfold t. rewrite L_body.enu2dca_spec, sin_minus, cos_minus, cos_PI2, sin_PI2.
  unfold vdot. apply L_frames.pair3_eq; ring.
Qed.
Theorem C17_isometry : forall e n u e' n' u' heading deg,
  vdot (enu2dca e n u heading deg) (enu2dca e' n' u' heading deg) = vdot (e, n, u) (e', n', u').
Proof. exact L_body.enu2dca_dot. Qed.
Theorem C17_ecef_roundtrip : forall a b c lat0 lon0 h0 heading ell deg,
  (let '(d, cr, ab) := ecef2dca a b c lat0 lon0 h0 heading ell deg in
     dca2ecef d cr ab lat0 lon0 h0 heading ell deg = (a, b, c)) /\
  (let '(x, y, z) := dca2ecef a b c lat0 lon0 h0 heading ell deg in
     ecef2dca x y z lat0 lon0 h0 heading ell deg = (a, b, c)).
Proof. intros. exact (conj (L_body.ecef_dca_ecef _ _ _ _ _ _ _ _ _) (L_body.dca_ecef_dca _ _ _ _ _ _ _ _ _)). Qed.
Theorem C17_consistent_with_geodetic_and_aer : forall lat lon h lat0 lon0 h0 heading ell deg,
  geodetic2dca lat lon h lat0 lon0 h0 heading ell deg
    = (let '(x, y, z) := geodetic2ecef lat lon h ell deg in
       ecef2dca x y z lat0 lon0 h0 heading ell deg) /\
  dca2geodetic lat lon h lat0 lon0 h0 heading ell deg
    = (let '(x, y, z) := dca2ecef lat lon h lat0 lon0 h0 heading ell deg in
       ecef2geodetic x y z ell deg) /\
  (let '(az, el, r) := dca2aer lat lon h heading deg in
   not_tiny3 (dca2enu lat lon h heading deg) -> aer2dca az el r heading deg = (lat, lon, h)).
Proof.
  intros. exact (conj (L_body.geodetic_dca_ecef _ _ _ _ _ _ _ _ _)
    (conj (L_body.dca_geodetic_ecef _ _ _ _ _ _ _ _ _) (L_body.dca_aer_dca _ _ _ _ _))).
Qed.
