(** Properties C18-C21 and C61-C64: ECI/ECEF conversion and Earth orientation
    (the path without astropy). *)
From Coq Require Import Lia Psatz.
From Verif Require Import PyMath M_ellipsoid M_ecef M_enu M_aer M_time M_frames M_earth M_eci M_sidereal
  Spec Spec_time Spec_eop P_time.
From Verif Require L_PyMath L_ell L_frames L_aer L_ecefrt L_time L_earth L_eci L_eci2 L_sidereal.
Open Scope R_scope.

(** ** C18 *)
Theorem C18_eci_ecef_eci : forall x y z t d xp yp x' y' z',
  eci2ecef x y z t d xp yp = Ok (x', y', z') -> ecef2eci x' y' z' t d xp yp = Ok (x, y, z).
Proof. exact L_eci.eci_inv1. Qed.
Theorem C18_ecef_eci_ecef : forall x y z t d xp yp x' y' z',
  ecef2eci x y z t d xp yp = Ok (x', y', z') -> eci2ecef x' y' z' t d xp yp = Ok (x, y, z).
Proof. exact L_eci.eci_inv2. Qed.
(** Dot products (hence lengths and angles) and cross products (hence
    handedness) are preserved. *)
Theorem C18_preserves_dot_cross : forall u1 u2 u3 v1 v2 v3 t d xp yp p q,
  eci2ecef u1 u2 u3 t d xp yp = Ok p -> eci2ecef v1 v2 v3 t d xp yp = Ok q ->
  vdot p q = vdot (u1, u2, u3) (v1, v2, v3) /\
  let '(w1, w2, w3) := vcross (u1, u2, u3) (v1, v2, v3) in
  eci2ecef w1 w2 w3 t d xp yp = Ok (vcross p q).
Proof.
  intros u1 u2 u3 v1 v2 v3 t d xp yp p q. unfold eci2ecef.
  destruct (eci_to_ecef_matrix t d xp yp) as [m|e] eqn:E; cbn [bind]; [|discriminate].
  intros H1 H2. apply L_eci.ok_inj in H1, H2. subst p q. apply L_eci.eci_matrix_rot in E.
  split; [exact (L_eci.rot_dot m _ _ E)|].
  pose proof (L_eci.rot_cross m (u1, u2, u3) (v1, v2, v3) E) as C.
  destruct (vcross (u1, u2, u3) (v1, v2, v3)) as [[w1 w2] w3]. apply (f_equal Ok). symmetry. exact C.
Qed.
(** Defined at every instant more than a day inside years 1..9999. *)
Lemma seconds_bound : forall d, Rabs d <= 1000 -> (- 1000000001 <= timedelta_seconds d <= 1000000001)%Z.
Proof.
  intros d Hd. unfold timedelta_seconds. pose proof (L_earth.round_half_even_near (d * 1000000)) as Q.
  unfold Rabs in Q, Hd. destruct (Rcase_abs _) as [q|q] in Q; destruct (Rcase_abs _) as [h|h] in Hd;
  split; apply le_IZR; lra.
Qed.
Lemma matrix_defined : forall t d xp yp, valid_dt t ->
  (first_instant + 86400000000 <= instant t <= last_instant - 86400000000)%Z -> Rabs d <= 1000 ->
  exists m, eci_to_ecef_matrix t d xp yp = Ok m.
Proof.
  intros t d xp yp V H Hd. pose proof (seconds_bound d Hd). pose proof (L_earth.tai_bounds (instant t)).
  unfold eci_to_ecef_matrix. rewrite (L_eci.jd_offset_ok t d V) by (unfold L_earth.in_range; lia). cbn [bind].
  rewrite (L_eci.jd_tt_ok t V) by (unfold L_earth.in_range; lia). cbn [bind]. eauto.
Qed.
Theorem C18_defined : forall x y z t d xp yp, valid_dt t ->
  (first_instant + 86400000000 <= instant t <= last_instant - 86400000000)%Z -> Rabs d <= 1000 ->
  exists p q, eci2ecef x y z t d xp yp = Ok p /\ ecef2eci x y z t d xp yp = Ok q.
Proof.
  intros x y z t d xp yp V H Hd. destruct (matrix_defined t d xp yp V H Hd) as [m E].
  unfold eci2ecef, ecef2eci. rewrite E. cbn [bind]. eauto.
Qed.
(** The same instant in another time zone gives the same result. *)
Theorem C18_timezone_independent : forall x y z t t' d xp yp,
  valid_dt t -> valid_dt t' -> instant t = instant t' ->
  eci2ecef x y z t d xp yp = eci2ecef x y z t' d xp yp /\
  ecef2eci x y z t d xp yp = ecef2eci x y z t' d xp yp.
Proof.
  intros x y z t t' d xp yp V V' E. unfold eci2ecef, ecef2eci.
  rewrite (L_eci.eci_matrix_instant t t' d xp yp V V' E). split; reflexivity.
Qed.
(** Arrays: same shape apart from squeezed unit axes, one scalar call per
    element, and AssertionError when the shapes differ. *)
Definition well_formed (a : ndarray) : Prop := size_of (shape a) = List.length (data a).
Lemma rotation_elementwise : forall x y z m, well_formed x -> well_formed y -> well_formed z ->
  shape x = shape y -> shape y = shape z ->
  exists xo yo zo, apply_rotation_array m x y z = Ok (xo, yo, zo) /\
  shape xo = filter (fun n => negb (Nat.eqb n 1)) (shape x) /\ shape yo = shape xo /\ shape zo = shape xo /\
  List.length (data xo) = List.length (data x) /\ List.length (data yo) = List.length (data x) /\
  List.length (data zo) = List.length (data x) /\
  forall i a b c, nth_error (data x) i = Some a -> nth_error (data y) i = Some b -> nth_error (data z) i = Some c ->
  exists a' b' c', nth_error (data xo) i = Some a' /\ nth_error (data yo) i = Some b' /\ nth_error (data zo) i = Some c' /\
  eo_matvec3 m (a, b, c) = (a', b', c').
Proof.
  intros x y z m Wx Wy Wz Sxy Syz.
  unfold apply_rotation_array, same_shape.
  destruct (list_eq_dec Nat.eq_dec (shape x) (shape y)); [|contradiction].
  destruct (list_eq_dec Nat.eq_dec (shape y) (shape z)); [|contradiction]. cbn [andb negb].
  set (rows := rows3 x y z).
  assert (L : List.length rows = List.length (data x)).
  { unfold rows, rows3. rewrite map_length, !combine_length. unfold well_formed in *. rewrite <- Sxy in Wy. rewrite <- Syz, <- Sxy in Wz. lia. }
  unfold reshape, col. rewrite !map_length, L. 
  assert (Q1 : Nat.eqb (size_of (shape x)) (List.length (data x)) = true) by (apply Nat.eqb_eq; exact Wx).
  rewrite <- Syz, <- Sxy, Q1. cbn [bind].
  eexists _, _, _. split; [reflexivity|]. unfold squeeze. cbn [shape data].
  split; [reflexivity|]. split; [reflexivity|]. split; [reflexivity|].
  split; [rewrite !map_length; exact L|]. split; [rewrite !map_length; exact L|]. split; [rewrite !map_length; exact L|].
  intros i a b c Ha Hb Hc.
  assert (Hr : nth_error rows i = Some (a, b, c)).
  { unfold rows, rows3. clear - Ha Hb Hc. revert Ha Hb Hc. generalize (data x) (data y) (data z). clear.
    induction i as [|i IH]; intros [|x0 l] [|y0 l'] [|z0 l''] Ha Hb Hc; cbn in *; try discriminate.
    - injection Ha as ->; injection Hb as ->; injection Hc as ->; reflexivity.
    - apply IH; assumption. }
  set (r := eo_matvec3 m (a, b, c)).
  assert (Hr' : nth_error (map (eo_matvec3 m) rows) i = Some r) by (apply map_nth_error; exact Hr).
  exists (v_at r 0), (v_at r 1), (v_at r 2).
  split; [exact (map_nth_error (fun r => v_at r 0) _ _ Hr')|].
  split; [exact (map_nth_error (fun r => v_at r 1) _ _ Hr')|].
  split; [exact (map_nth_error (fun r => v_at r 2) _ _ Hr')|].
  reflexivity.
Qed.
Theorem C18_array_elementwise : forall x y z t d xp yp, well_formed x -> well_formed y -> well_formed z ->
  shape x = shape y -> shape y = shape z ->
  forall m, eci_to_ecef_matrix t d xp yp = Ok m ->
  exists xo yo zo, eci2ecef_array x y z t d xp yp = Ok (xo, yo, zo) /\
  shape xo = filter (fun n => negb (Nat.eqb n 1)) (shape x) /\ shape yo = shape xo /\ shape zo = shape xo /\
  List.length (data xo) = List.length (data x) /\ List.length (data yo) = List.length (data x) /\
  List.length (data zo) = List.length (data x) /\
  forall i a b c, nth_error (data x) i = Some a -> nth_error (data y) i = Some b -> nth_error (data z) i = Some c ->
  exists a' b' c', nth_error (data xo) i = Some a' /\ nth_error (data yo) i = Some b' /\ nth_error (data zo) i = Some c' /\
  eci2ecef a b c t d xp yp = Ok (a', b', c').
Proof.
  intros x y z t d xp yp Wx Wy Wz Sxy Syz m Em. unfold eci2ecef_array, eci2ecef. rewrite Em. cbn [bind].
  destruct (rotation_elementwise x y z m Wx Wy Wz Sxy Syz) as (xo & yo & zo & H0 & H1 & H2 & H3 & H4 & H5 & H6 & H7).
  exists xo, yo, zo. repeat (split; [assumption|]). intros i a b c Ha Hb Hc.
  destruct (H7 i a b c Ha Hb Hc) as (a' & b' & c' & K1 & K2 & K3 & K4). exists a', b', c'.
  repeat (split; [assumption|]). rewrite K4. reflexivity.
Qed.
Theorem C18_array_elementwise_inverse : forall x y z t d xp yp, well_formed x -> well_formed y -> well_formed z ->
  shape x = shape y -> shape y = shape z ->
  forall m, eci_to_ecef_matrix t d xp yp = Ok m ->
  exists xo yo zo, ecef2eci_array x y z t d xp yp = Ok (xo, yo, zo) /\
  shape xo = filter (fun n => negb (Nat.eqb n 1)) (shape x) /\ shape yo = shape xo /\ shape zo = shape xo /\
  List.length (data xo) = List.length (data x) /\ List.length (data yo) = List.length (data x) /\
  List.length (data zo) = List.length (data x) /\
  forall i a b c, nth_error (data x) i = Some a -> nth_error (data y) i = Some b -> nth_error (data z) i = Some c ->
  exists a' b' c', nth_error (data xo) i = Some a' /\ nth_error (data yo) i = Some b' /\ nth_error (data zo) i = Some c' /\
  ecef2eci a b c t d xp yp = Ok (a', b', c').
Proof.
  intros x y z t d xp yp Wx Wy Wz Sxy Syz m Em. unfold ecef2eci_array, ecef2eci. rewrite Em. cbn [bind].
  destruct (rotation_elementwise x y z (eo_transpose3 m) Wx Wy Wz Sxy Syz) as (xo & yo & zo & H0 & H1 & H2 & H3 & H4 & H5 & H6 & H7).
  exists xo, yo, zo. repeat (split; [assumption|]). intros i a b c Ha Hb Hc.
  destruct (H7 i a b c Ha Hb Hc) as (a' & b' & c' & K1 & K2 & K3 & K4). exists a', b', c'.
  repeat (split; [assumption|]). rewrite K4. reflexivity.
Qed.
Theorem C18_array_shape_mismatch : forall x y z t d xp yp m, eci_to_ecef_matrix t d xp yp = Ok m ->
  (shape x <> shape y \/ shape y <> shape z) ->
  eci2ecef_array x y z t d xp yp = Raise AssertionError /\ ecef2eci_array x y z t d xp yp = Raise AssertionError.
Proof.
  intros x y z t d xp yp m E H. unfold eci2ecef_array, ecef2eci_array. rewrite E. cbn [bind].
  unfold apply_rotation_array, same_shape.
  destruct (list_eq_dec Nat.eq_dec (shape x) (shape y)); destruct (list_eq_dec Nat.eq_dec (shape y) (shape z));
    cbn [andb negb]; try (split; reflexivity). destruct H; contradiction.
Qed.
Example C18_hypotheses_met :
  let t := utc_at 2024 2 29 18 0 0 0 in valid_dt t /\
  (first_instant + 86400000000 <= instant t <= last_instant - 86400000000)%Z /\ Rabs (-0.0087) <= 1000.
Proof.
  cbv zeta. split; [vm_compute; intuition congruence|]. split.
  - unfold first_instant, last_instant, instant, utc_at. cbn [year month day hour minute second microsecond tzinfo].
    rewrite <- !L_time.ymd2ord_day_number by lia. vm_compute. intuition congruence.
  - apply Rabs_le. lra.
Qed.

(** ** C19 *)
Theorem C19_state_roundtrip : forall p v t d xp yp p' v',
  eci2ecef_state p v t d xp yp = Ok (p', v') -> ecef2eci_state p' v' t d xp yp = Ok (p, v).
Proof.
  intros p v t d xp yp p' v'. unfold eci2ecef_state, ecef2eci_state, state_numpy.
  destruct (eci_to_ecef_matrix t d xp yp) as [m|e] eqn:E; cbn [bind]; [|discriminate].
  destruct (eci_to_ecef_matrix_rate t d xp yp 0.5) as [r|e]; cbn [bind]; [|discriminate].
  intros H. apply L_eci.ok_inj in H. apply L_eci.eci_matrix_rot in E.
  pose proof (L_eci.state_inv1 m r p v E) as S. rewrite H in S. apply (f_equal Ok). exact S.
Qed.
Theorem C19_state_roundtrip_back : forall p v t d xp yp p' v',
  ecef2eci_state p v t d xp yp = Ok (p', v') -> eci2ecef_state p' v' t d xp yp = Ok (p, v).
Proof.
  intros p v t d xp yp p' v'. unfold eci2ecef_state, ecef2eci_state, state_numpy.
  destruct (eci_to_ecef_matrix t d xp yp) as [m|e] eqn:E; cbn [bind]; [|discriminate].
  destruct (eci_to_ecef_matrix_rate t d xp yp 0.5) as [r|e]; cbn [bind]; [|discriminate].
  intros H. apply L_eci.ok_inj in H. apply L_eci.eci_matrix_rot in E.
  pose proof (L_eci.state_inv2 m r p v E) as S. rewrite H in S. apply (f_equal Ok). exact S.
Qed.
(** The position part is that of the position-only functions. *)
Theorem C19_position_part : forall x y z v t d xp yp p' v',
  (eci2ecef_state (x, y, z) v t d xp yp = Ok (p', v') -> eci2ecef x y z t d xp yp = Ok p') /\
  (ecef2eci_state (x, y, z) v t d xp yp = Ok (p', v') -> ecef2eci x y z t d xp yp = Ok p').
Proof.
  intros x y z v t d xp yp p' v'. unfold eci2ecef_state, ecef2eci_state, state_numpy, eci2ecef, ecef2eci.
  destruct (eci_to_ecef_matrix t d xp yp) as [m|e]; cbn [bind]; [|split; discriminate].
  destruct (eci_to_ecef_matrix_rate t d xp yp 0.5) as [r|e]; cbn [bind]; [|split; discriminate].
  split; intros H; apply L_eci.ok_inj in H; apply (f_equal fst) in H; cbn [fst] in H; apply (f_equal Ok); exact H.
Qed.
(** The ECEF velocity is the rotated inertial velocity plus the apparent motion
    of the inertially fixed point over the second centred on [t]. *)
Theorem C19_velocity_part : forall x y z vx vy vz t d xp yp p' v' tm tp,
  eci2ecef_state (x, y, z) (vx, vy, vz) t d xp yp = Ok (p', v') ->
  dt_add t (-500000) = Ok tm -> dt_add t 500000 = Ok tp ->
  exists w q0 q1, eci2ecef vx vy vz t d xp yp = Ok w /\ eci2ecef x y z tm d xp yp = Ok q0 /\
  eci2ecef x y z tp d xp yp = Ok q1 /\ v' = vadd w (vscale (/ 1) (vsub q1 q0)).
Proof.
  intros x y z vx vy vz t d xp yp p' v' tm tp H Em Ep. unfold eci2ecef_state, state_numpy, eci_to_ecef_matrix_rate in H.
  replace (timedelta_seconds 0.5) with 500000%Z in H.
  2:{ unfold timedelta_seconds. replace (0.5 * 1000000) with (IZR 500000) by lra. symmetry. apply L_earth.round_half_even_int. }
  change (Z.opp 500000) with (-500000)%Z in H. rewrite Em in H. rewrite Ep in H. cbn [bind] in H. unfold eci2ecef.
  destruct (eci_to_ecef_matrix t d xp yp) as [m|e]; cbn [bind] in *; [|discriminate].
  destruct (eci_to_ecef_matrix tp d xp yp) as [mp|e]; cbn [bind] in *; [|discriminate].
  destruct (eci_to_ecef_matrix tm d xp yp) as [mm|e]; cbn [bind] in *; [|discriminate].
  eexists _, _, _. split; [reflexivity|]. split; [reflexivity|]. split; [reflexivity|].
  apply L_eci.ok_inj in H. apply (f_equal snd) in H. cbn [snd apply_state_rotation_scalar] in H. subst v'.
  destruct m as [[[[a b] c] [[d0 e] f]] [[g h] i]].
  destruct mp as [[[[a1 b1] c1] [[d1 e1] f1]] [[g1 h1] i1]].
  destruct mm as [[[[a2 b2] c2] [[d2 e2] f2]] [[g2 h2] i2]].
  cbv [eo_matvec3 eo_matscale3 eo_matsub3 tup3 sum3 m_at v_at vadd vscale vsub].
  replace (1 / (2 * 0.5)) with 1 by lra. rewrite Rinv_1. apply L_frames.pair3_eq; ring.
Qed.
Theorem C19_defined : forall p v t d xp yp, valid_dt t ->
  (first_instant + 172800000000 <= instant t <= last_instant - 172800000000)%Z ->
  match tzinfo t with None => True | Some o => o = 0%Z end -> Rabs d <= 1000 ->
  exists s s', eci2ecef_state p v t d xp yp = Ok s /\ ecef2eci_state p v t d xp yp = Ok s'.
Proof.
  intros p v t d xp yp V H Hz Hd. destruct (matrix_defined t d xp yp V ltac:(lia) Hd) as [m Em].
  unfold eci2ecef_state, ecef2eci_state, state_numpy. rewrite Em. cbn [bind]. unfold eci_to_ecef_matrix_rate.
  replace (timedelta_seconds 0.5) with 500000%Z.
  2:{ unfold timedelta_seconds. replace (0.5 * 1000000) with (IZR 500000) by lra. symmetry. apply L_earth.round_half_even_int. }
  change (Z.opp 500000) with (-500000)%Z.
  assert (G : forall us, (us = 500000 \/ us = -500000)%Z -> exists u, dt_add t us = Ok u /\ exists k, eci_to_ecef_matrix u d xp yp = Ok k).
  { intros us Hus. pose proof (L_time.dt_add_spec t us V) as S. pose proof (L_time.wall_instant t V) as W.
    rewrite L_time.first_instant_eq, L_time.last_instant_eq in H.
    assert (Hw : wall_us t = instant t) by (destruct (tzinfo t); lia).
    destruct (dt_add t us) as [u|e]; [|destruct S as [_ S]; exfalso; apply S; lia].
    destruct S as (S1 & S2 & S3 & S4). exists u. split; [reflexivity|]. apply matrix_defined; [exact S1| |exact Hd].
    rewrite L_time.first_instant_eq, L_time.last_instant_eq. pose proof (L_time.wall_instant u S1) as W2.
    rewrite S2 in W2. destruct (tzinfo t); lia. }
  destruct (G 500000%Z ltac:(left; reflexivity)) as (u1 & -> & k1 & E1).
  destruct (G (-500000)%Z ltac:(right; reflexivity)) as (u2 & -> & k2 & E2).
  cbn [bind]. rewrite E1. cbn [bind]. rewrite E2. cbn [bind]. eauto.
Qed.

(** ** C20 *)
(** eci2geodetic, eci2aer and aer2eci honour the Earth orientation arguments:
    they undo the position conversion made with the same arguments. *)
Theorem C64_eci2geodetic_honours_eop : forall lat lon t ell deg d xp yp x y z,
  ell_ok ell -> - quarter deg < lat < quarter deg -> - half deg < lon <= half deg ->
  (let '(xe, ye, ze) := geodetic2ecef lat lon 0 ell deg in ecef2eci xe ye ze t d xp yp) = Ok (x, y, z) ->
  eci2geodetic x y z t ell deg d xp yp = Ok (lat, lon, 0).
Proof.
  intros lat lon t ell deg d xp yp x y z He Hlat Hlon. pose proof (L_ecefrt.roundtrip_surface ell lat lon deg He Hlat Hlon) as Rt.
  destruct (geodetic2ecef lat lon 0 ell deg) as [[xe ye] ze]. intros E. apply L_eci.eci_inv2 in E.
  unfold eci2geodetic. rewrite E. cbn [bind]. apply (f_equal Ok). exact Rt.
Qed.
Theorem C64_aer_honours_eop : forall az el r lat0 lon0 h0 t deg d xp yp x y z,
  0 < r -> 0 <= az < full deg -> - quarter deg < el < quarter deg -> not_tiny3 (aer2enu az el r deg) ->
  aer2eci az el r lat0 lon0 h0 t None deg d xp yp = Ok (x, y, z) ->
  eci2aer x y z lat0 lon0 h0 t deg d xp yp = Ok (az, el, r).
Proof.
  intros az el r lat0 lon0 h0 t deg d xp yp x y z Hr Ha He Hn. unfold aer2eci, eci2aer.
  pose proof (L_aer.ecef2aer_aer2ecef az el r lat0 lon0 h0 None deg Hr Ha He Hn) as Rt.
  destruct (aer2ecef az el r lat0 lon0 h0 None deg) as [[xe ye] ze]. intros E. apply L_eci.eci_inv2 in E.
  rewrite E. cbn [bind]. apply (f_equal Ok). exact Rt.
Qed.
(** aer2eci on any ellipsoid: turned back to the Earth-fixed frame with the same
    arguments, the point is seen from the observer, on that ellipsoid, in the given
    direction at the given range. *)
Theorem C64_aer2eci_seen_from_observer : forall az el r lat0 lon0 h0 t ell deg d xp yp x y z,
  0 < r -> 0 <= az < full deg -> - quarter deg < el < quarter deg -> not_tiny3 (aer2enu az el r deg) ->
  aer2eci az el r lat0 lon0 h0 t ell deg d xp yp = Ok (x, y, z) ->
  exists xe ye ze, eci2ecef x y z t d xp yp = Ok (xe, ye, ze) /\ ecef2aer xe ye ze lat0 lon0 h0 ell deg = (az, el, r).
Proof.
  intros az el r lat0 lon0 h0 t ell deg d xp yp x y z Hr Ha He Hn. unfold aer2eci.
  pose proof (L_aer.ecef2aer_aer2ecef az el r lat0 lon0 h0 ell deg Hr Ha He Hn) as Rt.
  destruct (aer2ecef az el r lat0 lon0 h0 ell deg) as [[xe ye] ze]. intros E. apply L_eci.eci_inv2 in E. exists xe, ye, ze. split; assumption.
Qed.
(** Without Earth orientation arguments geodetic2eci and eci2geodetic invert
    each other on the surface. *)
Theorem C20_zero_eop_roundtrip_partial : forall lat lon t ell deg x y z,
  ell_ok ell -> - quarter deg < lat < quarter deg -> - half deg < lon <= half deg ->
  geodetic2eci lat lon 0 t ell deg 0 0 0 = Ok (x, y, z) ->
  eci2geodetic x y z t ell deg 0 0 0 = Ok (lat, lon, 0).
Proof.
  intros lat lon t ell deg x y z He Hlat Hlon E. apply C64_eci2geodetic_honours_eop; try assumption.
Qed.
(** Finding: geodetic2eci discards delta_ut1, xp and yp ... *)
Theorem C20_geodetic2eci_ignores_eop : forall lat lon alt t ell deg d xp yp d' xp' yp',
  geodetic2eci lat lon alt t ell deg d xp yp = geodetic2eci lat lon alt t ell deg d' xp' yp'.
Proof. reflexivity. Qed.
(** ... so the full property is false: on a spherical body, for every polar
    motion 0 < xp < 90 degrees, the round trip of the point (0, 0, 0) with the
    same arguments returns latitude xp. *)
Theorem C20_roundtrip_refuted : forall t xp x y z, 0 < xp < 324000 ->
  let s := mkEllipsoid "" "" 6371000 6371000 0 0 0 in
  geodetic2eci 0 0 0 t (Some s) true 0 xp 0 = Ok (x, y, z) ->
  eci2geodetic x y z t (Some s) true 0 xp 0 = Ok (xp / 3600, 0, 0).
Proof.
  intros t xp x y z Hxp s E.
  assert (He : ell_ok (Some s)).
  { unfold ell_ok, valid_ell, s. cbn. repeat split; try lra; field. }
  assert (Es : ell_a (Some s) = ell_b (Some s)) by reflexivity.
  pose proof (L_ecefrt.roundtrip_sphere (Some s) (xp / 3600) 0 0 true He Es) as Rt.
  unfold ell_a, quarter, half, s in Rt. cbn [semimajor_axis] in Rt. fold s in Rt.
  specialize (Rt ltac:(lra) ltac:(lra) ltac:(lra)).
  unfold geodetic2eci in E.
  assert (G : forall lat, geodetic2ecef lat 0 0 (Some s) true = (6371000 * cos (radians lat), 0, 6371000 * sin (radians lat))).
  { intros lat. unfold geodetic2ecef. cbn [resolve_ellipsoid semimajor_axis semiminor_axis s rad_in].
    replace (radians 0) with 0 by (unfold radians; lra). rewrite cos_0, sin_0. 
    replace (hypot (6371000 * cos (radians lat)) (6371000 * sin (radians lat))) with 6371000.
    2:{ unfold hypot. replace ((6371000 * cos (radians lat)) ^ 2 + (6371000 * sin (radians lat)) ^ 2)
        with (6371000 * 6371000 * (Rsqr (sin (radians lat)) + Rsqr (cos (radians lat)))) by (unfold Rsqr; ring).
        rewrite sin2_cos2, Rmult_1_r. symmetry. apply sqrt_square. lra. }
    apply L_frames.pair3_eq; field. }
  rewrite (G 0) in E. rewrite (G (xp / 3600)) in Rt.
  apply L_eci.eci_inv2 in E. unfold eci2geodetic. rewrite L_eci.eci2ecef_polar, E. unfold rmap. cbn [bind].
  rewrite L_eci.polar_vec. cbv zeta.
  replace (0 * ARCSEC2RAD) with 0 by ring. replace (radians 0) with 0 by (unfold radians; lra). rewrite cos_0, sin_0.
  replace (radians (xp / 3600)) with (xp * ARCSEC2RAD) in Rt by (unfold radians, ARCSEC2RAD; field).
  rewrite <- Rt. apply (f_equal Ok). f_equal; ring.
Qed.
Example C20_hypotheses_met : forall lat lon alt ell deg, exists p,
  geodetic2eci lat lon alt (utc_at 2024 2 29 18 0 0 0) ell deg 0 0.1 0 = Ok p.
Proof.
  intros. unfold geodetic2eci. destruct (geodetic2ecef lat lon alt ell deg) as [[x y] z].
  destruct C18_hypotheses_met as (V & H & _).
  destruct (C18_defined x y z _ 0 0 0 V H) as (p & q & _ & E).
  - rewrite Rabs_R0. lra.
  - exists q. exact E.
Qed.

(** ** C21 *)
(** Finding: with two or more elements the state functions always raise
    ValueError, whatever the contents (the loop variables shadow the arrays
    whose shape is read afterwards). *)
Theorem C21_arrays_refuted : forall x y z vx vy vz t d xp yp inverse m r,
  well_formed x -> (2 <= size_of (shape x))%nat ->
  well_formed y -> well_formed z -> well_formed vx -> well_formed vy -> well_formed vz ->
  shape x = shape y -> shape y = shape z -> shape z = shape vx -> shape vx = shape vy -> shape vy = shape vz ->
  eci_to_ecef_matrix t d xp yp = Ok m -> eci_to_ecef_matrix_rate t d xp yp 0.5 = Ok r ->
  state_array x y z vx vy vz t d xp yp inverse = Raise ValueError.
Proof.
  intros x y z vx vy vz t d xp yp inverse m r Wx Hs Wy Wz Wvx Wvy Wvz S1 S2 S3 S4 S5 Em Er.
  unfold state_array. rewrite Em, Er. cbn [bind]. unfold apply_state_rotation_array, same_shape.
  repeat (destruct (list_eq_dec Nat.eq_dec _ _); [|contradiction]). cbn [andb negb].
  set (rows := combine (rows3 x y z) (rows3 vx vy vz)).
  assert (L : List.length rows = size_of (shape x)).
  { unfold rows, rows3, well_formed in *. rewrite combine_length, !map_length, !combine_length.
    rewrite <- S1 in Wy. rewrite <- S2, <- S1 in Wz. rewrite <- S3, <- S2, <- S1 in Wvx.
    rewrite <- S4, <- S3, <- S2, <- S1 in Wvy. rewrite <- S5, <- S4, <- S3, <- S2, <- S1 in Wvz. lia. }
  destruct rows as [|r0 rows']; [cbn in L; lia|]. unfold reshape at 1, col. rewrite !map_length.
  cbn [size_of fold_right]. destruct (Nat.eqb_spec 1 (List.length (r0 :: rows'))) as [Q|Q]; [rewrite L in Q; lia|reflexivity].
Qed.
(** What does hold: a one-element array gives the scalar result. *)
Theorem C21_single_element_partial : forall a b c va vb vc t d xp yp p v,
  eci2ecef_state (a, b, c) (va, vb, vc) t d xp yp = Ok (p, v) ->
  let one u := mknd [1%nat] [u] in let scalar u := mknd [] [u] in
  state_array (one a) (one b) (one c) (one va) (one vb) (one vc) t d xp yp false
  = Ok (scalar (v_at p 0), scalar (v_at p 1), scalar (v_at p 2),
        (scalar (v_at v 0), scalar (v_at v 1), scalar (v_at v 2))).
Proof.
  intros a b c va vb vc t d xp yp p v. unfold eci2ecef_state, state_numpy, state_array.
  destruct (eci_to_ecef_matrix t d xp yp) as [m|]; cbn [bind]; [|discriminate].
  destruct (eci_to_ecef_matrix_rate t d xp yp 0.5) as [r|]; cbn [bind]; [|discriminate].
  intros H. apply L_eci.ok_inj in H. cbv zeta. unfold apply_state_rotation_array, same_shape. cbn [shape].
  destruct (list_eq_dec Nat.eq_dec [1%nat] [1%nat]); [|contradiction]. cbn [andb negb rows3 combine map data].
  unfold col, reshape. cbn [map List.length size_of fold_right Nat.eqb]. rewrite H. cbn [bind fst snd].
  reflexivity.
Qed.
(** Components of different shapes are refused. *)
Theorem C21_mismatched_shapes : forall x y z vx vy vz t d xp yp inverse m r,
  shape x <> shape y \/ shape y <> shape z \/ shape z <> shape vx \/ shape vx <> shape vy \/ shape vy <> shape vz ->
  eci_to_ecef_matrix t d xp yp = Ok m -> eci_to_ecef_matrix_rate t d xp yp 0.5 = Ok r ->
  state_array x y z vx vy vz t d xp yp inverse = Raise AssertionError.
Proof.
  intros x y z vx vy vz t d xp yp inverse m r H Em Er. unfold state_array. rewrite Em, Er. cbn [bind]. unfold apply_state_rotation_array, same_shape.
  repeat (destruct (list_eq_dec Nat.eq_dec _ _); [|reflexivity]). exfalso. tauto.
Qed.
Example C21_hypotheses_met : let a := mknd [2%nat] [1; 2] in well_formed a /\ (2 <= size_of (shape a))%nat.
Proof. cbv. split; [reflexivity|lia]. Qed.

(** ** C61: Earth rotation uses the apparent sidereal time *)
(** An inertially fixed vector keeps its height and its distance from the axis;
    its Earth-fixed longitude decreases by the increase of datetime2sidereal. *)
Theorem C61_ut1_rotates_about_axis : forall x y z t d1 d2 rho lam h th1 th2 p2,
  eci2ecef x y z t d1 0 0 = Ok (rho * cos lam, rho * sin lam, h) ->
  datetime2sidereal t 0 d1 = Ok th1 -> datetime2sidereal t 0 d2 = Ok th2 ->
  eci2ecef x y z t d2 0 0 = Ok p2 ->
  p2 = (rho * cos (lam - (th2 - th1)), rho * sin (lam - (th2 - th1)), h).
Proof.
  intros x y z t d1 d2 rho lam h th1 th2 p2. unfold eci2ecef, eci_to_ecef_matrix, datetime2sidereal.
  destruct (bind (utc_with_offset t d1) juliandate) as [j1|]; cbn [bind]; [|discriminate].
  destruct (bind (utc_with_offset t d2) juliandate) as [j2|]; cbn [bind].
  2:{ intros; discriminate. }
  destruct (bind (utc_to_tt t) juliandate) as [jt|]; cbn [bind]; [|discriminate].
  intros H1 E1 E2 H2. apply L_eci.ok_inj in H1, H2, E1, E2.
  change eo_matmul3 with matmul3 in *. change eo_matvec3 with matvec3 in *.
  rewrite L_eci.polar_zero, L_eci.matmul_sid, L_frames.matmul_vec, L_eci.rz_vec in H1.
  rewrite L_eci.polar_zero, L_eci.matmul_sid, L_frames.matmul_vec, L_eci.rz_vec in H2.
  destruct (matvec3 _ (x, y, z)) as [[u v] w].
  set (g1 := greenwich_apparent_sidereal_time j1 jt) in *. set (g2 := greenwich_apparent_sidereal_time j2 jt) in *.
  assert (F1 : th1 = g1).
  { rewrite <- E1, Rplus_0_r. apply L_PyMath.py_mod_small. apply L_PyMath.py_mod_range. apply L_PyMath.tau_pos. }
  assert (F2 : th2 = g2).
  { rewrite <- E2, Rplus_0_r. apply L_PyMath.py_mod_small. apply L_PyMath.py_mod_range. apply L_PyMath.tau_pos. }
  clear E1 E2. subst th1 th2 p2. injection H1 as A1 A2 A3.
  assert (U : u = cos g1 * (rho * cos lam) - sin g1 * (rho * sin lam)).
  { rewrite <- A1, <- A2. pose proof (sin2_cos2 g1) as Q. unfold Rsqr in Q.
    replace u with (u * (sin g1 * sin g1 + cos g1 * cos g1)) at 1 by (rewrite Q; ring). ring. }
  assert (W : v = sin g1 * (rho * cos lam) + cos g1 * (rho * sin lam)).
  { rewrite <- A1, <- A2. pose proof (sin2_cos2 g1) as Q. unfold Rsqr in Q.
    replace v with (v * (sin g1 * sin g1 + cos g1 * cos g1)) at 1 by (rewrite Q; ring). ring. }
  rewrite U, W, A3.
  rewrite (cos_minus lam), (sin_minus lam), (cos_minus g2), (sin_minus g2). apply L_frames.pair3_eq; ring.
Qed.
(** GAST and GMST differ by less than 19 arcseconds (the nutation bound). *)
Theorem C61_equation_of_equinoxes_bound : forall jd_ut1 jd_tt, exists k : Z,
  Rabs (greenwich_apparent_sidereal_time jd_ut1 jd_tt - greenwichsrt jd_ut1 - IZR k * (2 * PI))
  <= 18.96 * (PI / 648000).
Proof.
  intros j1 j2. unfold greenwich_apparent_sidereal_time, greenwichsrt.
  set (g := greenwich_mean_sidereal_time j1). set (T := julian_centuries j2).
  destruct (L_PyMath.py_mod_congr (g + equation_of_equinoxes T) tau L_PyMath.tau_pos) as [k ->].
  exists k. unfold tau. replace (_ - _ - _) with (equation_of_equinoxes T) by ring.
  unfold equation_of_equinoxes, nutation_short. cbv zeta.
  set (om := py_mod (125.04452 - _ + _ + _) 360.0 * PI / 180.0). set (Lp := py_mod (218.3165 + _) 360.0 * PI / 180.0).
  set (L := py_mod _ 360.0 * PI / 180.0). clearbody L Lp om.
  set (e := mean_obliquity T + _). clearbody e.
  pose proof (SIN_bound om). pose proof (SIN_bound (2.0 * L)). pose proof (SIN_bound (2.0 * Lp)). pose proof (SIN_bound (2.0 * om)).
  pose proof (COS_bound e). pose proof PI_RGT_0.
  set (q := -17.20 * sin om - 1.32 * sin (2.0 * L) - 0.23 * sin (2.0 * Lp) + 0.21 * sin (2.0 * om)) in *.
  assert (Hq : - 18.96 <= q <= 18.96) by (unfold q; lra). clearbody q. unfold ARCSEC2RAD.
  assert (Hc : Rabs (cos e) <= 1) by (apply Rabs_le; lra).
  assert (Hq' : Rabs q <= 18.96) by (apply Rabs_le; lra).
  rewrite Rabs_mult, Rabs_mult. rewrite (Rabs_right (PI / 648000)) by lra.
  pose proof (Rabs_pos q). pose proof (Rabs_pos (cos e)). 
  apply Rle_trans with (18.96 * (PI / 648000) * 1); [|lra].
  apply Rmult_le_compat; [apply Rmult_le_pos; lra|lra|apply Rmult_le_compat_r; lra|lra].
Qed.

(** ** C62: direction of polar motion *)
(** IERS convention: the rotation pole seen from the Earth-fixed frame is at
    (xp, -yp) (to first order).  Let v be the inertial direction of the pole:
    without polar motion it is the z axis. *)
Theorem C62_pole_image_partial : forall t d xp yp v1 v2 v3 p,
  eci2ecef v1 v2 v3 t d 0 0 = Ok (0, 0, 1) -> eci2ecef v1 v2 v3 t d xp yp = Ok p ->
  let a := xp * PI / 648000 in let b := yp * PI / 648000 in
  p = (- (sin a * cos b), sin b, cos a * cos b).
Proof.
  intros t d xp yp v1 v2 v3 p H0 H. rewrite L_eci.eci2ecef_polar, H0 in H. unfold rmap in H. cbn [bind] in H.
  apply L_eci.ok_inj in H. rewrite L_eci.polar_vec in H. cbv zeta in H. subst p. cbv zeta.
  replace (xp * ARCSEC2RAD) with (xp * PI / 648000) by (unfold ARCSEC2RAD; field).
  replace (yp * ARCSEC2RAD) with (yp * PI / 648000) by (unfold ARCSEC2RAD; field).
  apply L_frames.pair3_eq; ring.
Qed.
(** Finding: both signs are opposite to the convention, for every xp, yp in (0, 90 deg). *)
Theorem C62_iers_convention_refuted : forall t d xp yp v1 v2 v3 p1 p2 p3,
  0 < xp < 324000 -> 0 < yp < 324000 ->
  eci2ecef v1 v2 v3 t d 0 0 = Ok (0, 0, 1) -> eci2ecef v1 v2 v3 t d xp yp = Ok (p1, p2, p3) ->
  p1 < 0 /\ 0 < p2.
Proof.
  intros t d xp yp v1 v2 v3 p1 p2 p3 Hx Hy H0 H. pose proof (C62_pole_image_partial t d xp yp v1 v2 v3 _ H0 H) as E. cbv zeta in E.
  injection E as -> -> _. pose proof PI_RGT_0 as P.
  assert (0 < sin (xp * PI / 648000)) by (apply sin_gt_0; nra).
  assert (0 < sin (yp * PI / 648000)) by (apply sin_gt_0; nra).
  assert (0 < cos (yp * PI / 648000)) by (apply cos_gt_0; nra).
  split; [nra|assumption].
Qed.
Example C62_hypotheses_met : exists v1 v2 v3,
  eci2ecef v1 v2 v3 (utc_at 2024 2 29 18 0 0 0) 0 0 0 = Ok (0, 0, 1).
Proof.
  destruct C18_hypotheses_met as (V & H & _).
  destruct (C18_defined 0 0 1 _ 0 0 0 V H) as (p & [[q1 q2] q3] & _ & E); [rewrite Rabs_R0; lra|].
  exists q1, q2, q3. exact (L_eci.eci_inv2 _ _ _ _ _ _ _ _ _ _ E).
Qed.

(** ** C63: precession and nutation *)
(** Equatorial components of the direction with ecliptic longitude lam and
    latitude bet, for obliquity eps. *)
Definition ecliptic_dir (eps lam bet : R) : vec3 :=
  let x := cos bet * cos lam in let y := cos bet * sin lam in let z := sin bet in
  (x, cos eps * y - sin eps * z, sin eps * y + cos eps * z).
(** Nutation adds Delta psi to ecliptic longitude and Delta eps to the obliquity. *)
Theorem C63_nutation_matrix : forall T lam bet, let '(dpsi, deps) := nutation_short T in
  smulv (nutation_matrix T) (ecliptic_dir (mean_obliquity T) lam bet)
  = ecliptic_dir (mean_obliquity T + deps) (lam + dpsi) bet.
Proof.
  intros T lam bet. unfold nutation_matrix. destruct (nutation_short T) as [dpsi deps].
  set (e0 := mean_obliquity T). clearbody e0. rewrite <- L_frames.matvec_smulv.
  change eo_matmul3 with matmul3. rewrite !L_frames.matmul_vec.
  replace (matvec3 (eo_rotation_x e0) (ecliptic_dir e0 lam bet)) with (cos bet * cos lam, cos bet * sin lam, sin bet).
  2:{ unfold eo_rotation_x, ecliptic_dir. cbv [matvec3 tup3 sum3 m_at v_at]. pose proof (sin2_cos2 e0) as Q. unfold Rsqr in Q.
      apply L_frames.pair3_eq.
      - ring.
      - replace (cos bet * sin lam) with (cos bet * sin lam * (sin e0 * sin e0 + cos e0 * cos e0)) at 1 by (rewrite Q; ring). ring.
      - replace (sin bet) with (sin bet * (sin e0 * sin e0 + cos e0 * cos e0)) at 1 by (rewrite Q; ring). ring. }
  set (e := e0 + deps). clearbody e.
  unfold eo_rotation_z, eo_rotation_x, ecliptic_dir. rewrite !sin_neg, !cos_neg, sin_plus, cos_plus.
  cbv [matvec3 tup3 sum3 m_at v_at]. apply L_frames.pair3_eq; ring.
Qed.
(** |Delta psi| <= 18.96", |Delta eps| <= 9.96". *)
Theorem C63_nutation_bounds : forall T, let '(dpsi, deps) := nutation_short T in
  Rabs dpsi <= 18.96 * (PI / 648000) /\ Rabs deps <= 9.96 * (PI / 648000).
Proof.
  intros T. unfold nutation_short. cbv zeta.
  set (om := py_mod (125.04452 - _ + _ + _) 360.0 * PI / 180.0). set (Lp := py_mod (218.3165 + _) 360.0 * PI / 180.0).
  set (L := py_mod _ 360.0 * PI / 180.0). clearbody L Lp om.
  pose proof (SIN_bound om). pose proof (SIN_bound (2.0 * L)). pose proof (SIN_bound (2.0 * Lp)). pose proof (SIN_bound (2.0 * om)).
  pose proof (COS_bound om). pose proof (COS_bound (2.0 * L)). pose proof (COS_bound (2.0 * Lp)). pose proof (COS_bound (2.0 * om)).
  pose proof PI_RGT_0. unfold ARCSEC2RAD. rewrite !Rabs_mult, (Rabs_right (PI / 648000)) by lra.
  split; apply Rmult_le_compat_r; try lra; apply Rabs_le; lra.
Qed.
(** Precession: the IAU 1976 reduction of mean equatorial coordinates from
    J2000.0 to date (Meeus, Astronomical Algorithms, (21.2)-(21.4)): the star at
    right ascension al and declination de goes to right ascension atan2(A, B) + z
    and sine of declination C. *)
Theorem C63_precession_matrix : forall T al de, is_rotation (precession_matrix T) /\
  let zeta := (2306.2181 * T + 0.30188 * T ^ 2 + 0.017998 * T ^ 3) * (PI / 648000) in
  let z := (2306.2181 * T + 1.09468 * T ^ 2 + 0.018203 * T ^ 3) * (PI / 648000) in
  let theta := (2004.3109 * T - 0.42665 * T ^ 2 - 0.041833 * T ^ 3) * (PI / 648000) in
  let A := cos de * sin (al + zeta) in
  let B := cos theta * cos de * cos (al + zeta) - sin theta * sin de in
  let C := sin theta * cos de * cos (al + zeta) + cos theta * sin de in
  smulv (precession_matrix T) (cos de * cos al, cos de * sin al, sin de)
  = (B * cos z - A * sin z, B * sin z + A * cos z, C).
Proof.
  intros T al de. split; [apply L_eci.precession_rot|]. intros zeta z theta A B C. unfold precession_matrix.
  change (PI / 648000) with ARCSEC2RAD in *. fold zeta. fold theta. fold z. 
  rewrite <- L_frames.matvec_smulv. change eo_matmul3 with matmul3. rewrite !L_frames.matmul_vec.
  unfold A, B, C. clear A B C. clearbody zeta z theta. rewrite sin_plus, cos_plus.
  unfold eo_rotation_z, eo_rotation_y. rewrite !sin_neg, !cos_neg.
  cbv [matvec3 tup3 sum3 m_at v_at]. apply L_frames.pair3_eq; ring.
Qed.
Theorem C63_precession_epoch : precession_matrix 0 = sid.
Proof.
  unfold precession_matrix.
  replace ((2306.2181 * 0 + 0.30188 * 0 ^ 2 + 0.017998 * 0 ^ 3) * ARCSEC2RAD) with 0 by ring.
  replace ((2004.3109 * 0 - 0.42665 * 0 ^ 2 - 0.041833 * 0 ^ 3) * ARCSEC2RAD) with 0 by ring.
  replace ((2306.2181 * 0 + 1.09468 * 0 ^ 2 + 0.018203 * 0 ^ 3) * ARCSEC2RAD) with 0 by ring.
  unfold eo_rotation_z, eo_rotation_y. rewrite Ropp_0, sin_0, cos_0.
  cbv [eo_matmul3 tup3 sum3 m_at v_at sid]. repeat first [ring | apply f_equal2].
Qed.

(** Every value used by the reduction, against the published series. *)
Theorem C63_obliquity_value : forall T, mean_obliquity T = iau_obliquity T.
Proof. intros. unfold mean_obliquity, iau_obliquity, degree, arcsec, ARCSEC2RAD. lra. Qed.
Theorem C63_nutation_value : forall T, nutation_short T = (nut_psi T, nut_eps T).
Proof. exact L_eci2.nutation_value. Qed.
Theorem C63_gmst_value : forall jd, exists k : Z,
  greenwichsrt jd = gmst_seconds ((jd - 2451545) / 36525) / 86400 * (2 * PI) + IZR k * (2 * PI).
Proof. exact L_eci2.gmst_value. Qed.
(** Agreement with the degree form (Meeus (12.4)) to 1.5e-7 degrees over a
    century either side of J2000. *)
Theorem C63_gmst_degree_form : forall T, -1 <= T <= 1 ->
  Rabs (gmst_seconds T / 240
        - (280.46061837 + 360.98564736629 * (36525 * T) + 0.000387933 * T ^ 2 - T ^ 3 / 38710000))
  <= 0.00000015.
Proof. exact L_eci2.gmst_degree_form. Qed.
(** eci2ecef is the published reduction, with Earth rotation driven by UT1 and
    precession-nutation by TT. *)
Theorem C63_eci2ecef_is_reduction : forall x y z t d xp yp p, valid_dt t ->
  eci2ecef x y z t d xp yp = Ok p ->
  let ut1 := IZR (instant t + timedelta_seconds d) in
  let tt := IZR (instant t + tai_minus_utc (instant t) * 1000000 + 32184000) in
  p = reduce (centuries ut1) (centuries tt) xp yp (x, y, z).
Proof. exact L_eci2.eci2ecef_reduction. Qed.
(** The centuries vanish at J2000.0 (2000-01-01 12:00:00). *)
Theorem C63_epoch : centuries (IZR (instant (utc_at 2000 1 1 12 0 0 0))) = 0.
Proof.
  replace (instant (utc_at 2000 1 1 12 0 0 0)) with (63082411200000000)%Z by (vm_compute; reflexivity).
  unfold centuries. lra.
Qed.
