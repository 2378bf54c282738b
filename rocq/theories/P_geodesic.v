(** Property C70: accuracy of geodesic_direct against the true geodesics of the
    ellipsoid. *)
From Coq Require Import Reals Lra Lia Psatz.
From Verif Require Import PyMath M_ellipsoid M_karney Spec Spec_geodesic.
From Verif Require Import P_karney.
From Verif Require P_vincenty L_ell L_karney2 L_karney5 L_geodesic3 L_geodesic5 L_geodesic6.
Open Scope R_scope.

(** ** Specification *)
(** The geodesic [c] with tangent [t] of the chosen body sets out from the given
    position with the given azimuth. *)
Definition leaves (deg : bool) (ell : option Ellipsoid) (lat lon az : R) (c t : R -> vec3) : Prop :=
  let a := ell_a ell in let b := ell_b ell in
  unit_geodesic a b c t /\ c 0 = surface_point a b (as_rad deg lat) (as_rad deg lon) /\
  t 0 = heading_vector (as_rad deg lat) (as_rad deg lon) (as_rad deg az).
(** Third flattening. *)
Definition third (ell : option Ellipsoid) : R := (ell_a ell - ell_b ell) / (ell_a ell + ell_b ell).
(** At most as flat as 1/100 (the Earth: 1/298). *)
Definition round_enough (ell : option Ellipsoid) : Prop := ell_ok ell /\ ell_a ell - ell_b ell <= ell_a ell / 100.

(** ** C70: geodesic_direct follows the true geodesic *)
(** The specification is not empty: there is a geodesic from every point in every
    direction, and only one. *)
Theorem C70_geodesic_exists : forall deg ell lat lon az, ell_ok ell -> exists c t, leaves deg ell lat lon az c t.
Proof. intros deg ell lat lon az H. destruct (L_ell.ell_pos ell H) as [Hb Ha]. exact (L_geodesic6.geodesic_from _ _ _ _ _ Hb Ha). Qed.
Theorem C70_geodesic_unique : forall deg ell lat lon az c t c' t', ell_ok ell -> leaves deg ell lat lon az c t -> leaves deg ell lat lon az c' t' ->
  forall s, c s = c' s /\ t s = t' s.
Proof.
  intros deg ell lat lon az c t c' t' H (G & A & B) (G' & A' & B'). destruct (L_ell.ell_pos ell H) as [Hb Ha].
  apply (L_geodesic3.geodesic_unique (ell_a ell) (ell_b ell) Hb Ha c t c' t' G G'); congruence.
Qed.
Lemma direct_both deg ell lat1 lon1 az1 s c t lat2 lon2 az2 : round_enough ell -> off_pole deg lat1 -> leaves deg ell lat1 lon1 az1 c t ->
  geodesic_direct lat1 lon1 az1 s ell deg = (lat2, lon2, az2) ->
  let err := third ell ^ 7 * (300 + 80 * (Rabs s / ell_b ell)) in
  let p := surface_point (ell_a ell) (ell_b ell) (as_rad deg lat2) (as_rad deg lon2) in
  (vdist3 p (c s) <= ell_a ell * err /\ vdist3 (heading_vector (as_rad deg lat2) (as_rad deg lon2) (as_rad deg az2)) (t s) <= err) \/
  (~ off_pole deg lat2 /\ sin (as_rad deg az1) = 0 /\ vdist3 p (c s) <= ell_a ell * err + ell_a ell / 2 ^ 25).
Proof.
  intros [Ho Hf] Hp (G & A & B) D. destruct (L_karney5.get_oblate ell Ho) as (O & Ea & Eb). destruct (L_ell.ell_pos ell Ho) as [Pb Pa].
  destruct (off_pole_deg _ _ Hp) as [_ T]. pose proof O as (Hab & F & F1 & B1 & _ & En & _).
  assert (Ef : gd_f (get_geodesic ell) = (ell_a ell - ell_b ell) / ell_a ell) by (rewrite F1, Ea, Eb in B1; rewrite B1 at 1; field; lra).
  assert (Hf' : gd_f (get_geodesic ell) <= 1 / 100).
  { rewrite Ef. apply Rmult_le_reg_r with (ell_a ell); [lra|]. replace ((ell_a ell - ell_b ell) / ell_a ell * ell_a ell) with (ell_a ell - ell_b ell) by (field; lra). lra. }
  assert (N : gd_n (get_geodesic ell) = third ell) by (rewrite En, Ef; unfold third; field; lra).
  pose proof (L_geodesic5.Direct_geodesic (get_geodesic ell) (to_deg deg lat1) (to_deg deg lon1) (to_deg deg az1) s c t O Hf' T) as Q.
  cbv zeta in Q. rewrite Ea, Eb, N, !to_rad in Q. specialize (Q G A B). rewrite direct_open in D. destruct (Direct _ _ _ _ _) as [[x y] z]. injection D as <- <- <-.
  cbv zeta. rewrite !of_rad. replace (ell_a ell * third ell ^ 7 * (300 + 80 * (Rabs s / ell_b ell))) with (ell_a ell * (third ell ^ 7 * (300 + 80 * (Rabs s / ell_b ell)))) in Q by ring.
  destruct Q as [Q|(Q1 & Q2 & Q3)]; [left; exact Q|right]. rewrite L_karney2.tiny_eq in Q1, Q3. split; [|split; [exact Q2|]].
  - intros [_ Z]. rewrite of_rad in Z. lra.
  - replace (ell_a ell / 2 ^ 25) with (2 * ell_a ell * / 2 ^ 26) by (simpl; field). exact Q3.
Qed.
(** Whatever the distance, the returned position and azimuth are those of the point
    at that distance along the geodesic, with an error of seventh order in the third
    flattening n: 300 n^7 + 80 n^7 s/b (relative to the radius, resp. in radians). *)
Theorem C70_direct_accuracy : forall deg ell lat1 lon1 az1 s c t lat2 lon2 az2, round_enough ell -> off_pole deg lat1 -> leaves deg ell lat1 lon1 az1 c t ->
  geodesic_direct lat1 lon1 az1 s ell deg = (lat2, lon2, az2) -> off_pole deg lat2 ->
  let err := third ell ^ 7 * (300 + 80 * (Rabs s / ell_b ell)) in
  vdist3 (surface_point (ell_a ell) (ell_b ell) (as_rad deg lat2) (as_rad deg lon2)) (c s) <= ell_a ell * err /\
  vdist3 (heading_vector (as_rad deg lat2) (as_rad deg lon2) (as_rad deg az2)) (t s) <= err.
Proof. intros deg ell lat1 lon1 az1 s c t lat2 lon2 az2 R1 P1 L D P2. destruct (direct_both deg ell lat1 lon1 az1 s c t lat2 lon2 az2 R1 P1 L D) as [Q|[Q _]]; [exact Q|destruct (Q P2)]. Qed.
(** Off the meridians no end point needs to be excluded. *)
Theorem C70_direct_accuracy_off_meridian : forall deg ell lat1 lon1 az1 s c t lat2 lon2 az2, round_enough ell -> off_pole deg lat1 -> leaves deg ell lat1 lon1 az1 c t ->
  geodesic_direct lat1 lon1 az1 s ell deg = (lat2, lon2, az2) -> sin (as_rad deg az1) <> 0 ->
  let err := third ell ^ 7 * (300 + 80 * (Rabs s / ell_b ell)) in
  vdist3 (surface_point (ell_a ell) (ell_b ell) (as_rad deg lat2) (as_rad deg lon2)) (c s) <= ell_a ell * err /\
  vdist3 (heading_vector (as_rad deg lat2) (as_rad deg lon2) (as_rad deg az2)) (t s) <= err.
Proof. intros deg ell lat1 lon1 az1 s c t lat2 lon2 az2 R1 P1 L D P2. destruct (direct_both deg ell lat1 lon1 az1 s c t lat2 lon2 az2 R1 P1 L D) as [Q|(_ & Q & _)]; [exact Q|contradiction]. Qed.
(** With no condition on the end point the position is still right, up to the clamp at
    the poles (a / 2^25, about 0.2 m on the Earth). *)
Theorem C70_direct_position_any_end : forall deg ell lat1 lon1 az1 s c t lat2 lon2 az2, round_enough ell -> off_pole deg lat1 -> leaves deg ell lat1 lon1 az1 c t ->
  geodesic_direct lat1 lon1 az1 s ell deg = (lat2, lon2, az2) ->
  vdist3 (surface_point (ell_a ell) (ell_b ell) (as_rad deg lat2) (as_rad deg lon2)) (c s)
    <= ell_a ell * (third ell ^ 7 * (300 + 80 * (Rabs s / ell_b ell))) + ell_a ell / 2 ^ 25.
Proof.
  intros deg ell lat1 lon1 az1 s c t lat2 lon2 az2 R1 P1 L D. destruct (direct_both deg ell lat1 lon1 az1 s c t lat2 lon2 az2 R1 P1 L D) as [[Q _]|(_ & _ & Q)]; [|exact Q].
  destruct (L_ell.ell_pos ell (proj1 R1)) as [Pb Pa]. assert (0 < ell_a ell / 2 ^ 25) by (apply Rdiv_lt_0_compat; [lra|apply pow_lt; lra]). lra.
Qed.
(** On the Earth: within a nanometre and 1e-15 rad for distances up to 100 000 km. *)
Lemma wgs84_third : 0 <= third None <= 16793 / 10000000.
Proof.
  unfold third. cbn [ell_a ell_b]. split.
  - apply Rmult_le_pos; [lra|]. left. apply Rinv_0_lt_compat. lra.
  - apply Rmult_le_reg_r with (6378137 + 635675231424518 / 100000000); [lra|]. unfold Rdiv at 1. rewrite Rmult_assoc, Rinv_l; lra.
Qed.
Lemma wgs84_round : round_enough None.
Proof. split; [exact I|]. cbn [ell_a ell_b]. lra. Qed.
Theorem C70_direct_accuracy_earth : forall deg lat1 lon1 az1 s c t lat2 lon2 az2, off_pole deg lat1 -> leaves deg None lat1 lon1 az1 c t -> Rabs s <= 10 ^ 8 ->
  geodesic_direct lat1 lon1 az1 s None deg = (lat2, lon2, az2) -> off_pole deg lat2 ->
  vdist3 (surface_point (ell_a None) (ell_b None) (as_rad deg lat2) (as_rad deg lon2)) (c s) <= / 10 ^ 9 /\
  vdist3 (heading_vector (as_rad deg lat2) (as_rad deg lon2) (as_rad deg az2)) (t s) <= / 10 ^ 15.
Proof.
  intros deg lat1 lon1 az1 s c t lat2 lon2 az2 P1 L S D P2. destruct (C70_direct_accuracy deg None lat1 lon1 az1 s c t lat2 lon2 az2 wgs84_round P1 L D P2) as [A B]. cbv zeta in A, B.
  assert (E : third None ^ 7 * (300 + 80 * (Rabs s / ell_b None)) <= / 10 ^ 16).
  { apply Rle_trans with ((16793 / 10000000) ^ 7 * (300 + 80 * 16)).
    - apply Rmult_le_compat; [apply pow_le, wgs84_third| |apply pow_incr, wgs84_third|].
      + pose proof (Rabs_pos s). cbn [ell_b]. assert (0 <= Rabs s / (635675231424518 / 100000000)) by (apply Rmult_le_pos; [lra|left; apply Rinv_0_lt_compat; lra]). lra.
      + assert (Rabs s / ell_b None <= 16); [|lra]. cbn [ell_b]. apply Rmult_le_reg_r with (635675231424518 / 100000000); [lra|].
        unfold Rdiv at 1. rewrite Rmult_assoc, Rinv_l by lra. lra.
    - simpl. lra. }
  split; [|apply Rle_trans with (1 := B), Rle_trans with (1 := E); simpl; lra].
  apply Rle_trans with (1 := A). apply Rle_trans with (ell_a None * / 10 ^ 16); [apply Rmult_le_compat_l; [cbn [ell_a]; lra|exact E]|]. cbn [ell_a]. simpl. lra.
Qed.
Example C70_example : off_pole true 30 /\ round_enough None /\ exists c t, leaves true None 30 20 45 c t.
Proof.
  split; [|split; [exact wgs84_round|apply C70_geodesic_exists; exact I]]. split; [unfold P_vincenty.lat_ok; cbn [quarter]; lra|].
  unfold as_rad. replace (30 * PI / 180) with (PI / 6) by field. rewrite cos_PI6.
  assert (1 <= sqrt 3) by (rewrite <- sqrt_1; apply sqrt_le_1; lra). simpl. lra.
Qed.
