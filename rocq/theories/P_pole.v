(** Property C84: geodesic_inverse from or to a pole. *)
From Coq Require Import Reals Lra Lia Psatz.
From Verif Require Import PyMath M_ellipsoid M_karney Spec Spec_geodesic.
From Verif Require Import P_karney P_geodesic P_vincenty P_inverse.
From Verif Require L_PyMath L_ell L_karney L_karney2 L_karney3 L_karney5 L_karney6 L_geodesic4 L_geodesic8 L_geodesic11 L_pole1 L_pole2.
Open Scope R_scope.

(** ** Specification *)
(** A pole; and farther than 2^-25 (about 0.2 m on the Earth) from both. *)
Definition at_pole (deg : bool) (lat : R) : Prop := lat_ok deg lat /\ cos (as_rad deg lat) = 0.
Definition clear_of_pole (deg : bool) (lat : R) : Prop := lat_ok deg lat /\ / 2 ^ 25 <= cos (as_rad deg lat).

Lemma pole_deg deg lat : at_pole deg lat -> to_deg deg lat = 90 \/ to_deg deg lat = -90.
Proof.
  intros [H C]. pose proof PI_RGT_0 as PP. assert (B : -90 <= to_deg deg lat <= 90).
  { destruct deg; unfold lat_ok in H; cbn [to_deg half quarter] in *; [exact H|]. unfold degrees. split; apply Rmult_le_reg_r with PI; try lra; unfold Rdiv; rewrite Rmult_assoc, Rinv_l by lra; lra. }
  rewrite <- to_rad in C. destruct (Req_dec (to_deg deg lat) 90) as [|N1]; [now left|]. destruct (Req_dec (to_deg deg lat) (-90)) as [|N2]; [now right|]. exfalso.
  assert (0 < cos (radians (to_deg deg lat))); [|lra]. apply cos_gt_0; unfold radians; nra.
Qed.
Lemma clear_deg deg lat : clear_of_pole deg lat -> -90 < to_deg deg lat < 90 /\ 2 * k_tiny <= cos (radians (to_deg deg lat)).
Proof.
  intros [H C]. assert (T : 2 * k_tiny = / 2 ^ 25) by (rewrite L_karney2.tiny_eq; simpl; field). assert (O : off_pole deg lat) by (split; [exact H|]; rewrite <- L_karney2.tiny_eq; pose proof L_karney2.tiny_pos; lra).
  destruct (open_lat _ _ O) as [A _]. split; [exact A|]. rewrite T, to_rad. exact C.
Qed.
Lemma pole_joins deg ell lat1 lon1 lat2 lon2 s az1 az2 : round_enough ell ->
  (exists d lx, L_geodesic8.conn (ell_a ell) (ell_b ell) (as_rad deg lat1) (as_rad deg az1) (as_rad deg lat2) (as_rad deg az2) d lx /\
    Rabs (d - s) <= ell_b ell * (80 * third ell ^ 7 + 105 / 100 * k_tiny) /\ Rabs (lx - radians (AngNormalize (to_deg deg lon2 - to_deg deg lon1))) <= 0) ->
  joins deg ell lat1 lon1 lat2 lon2 s az1 az2 (300 * third ell ^ 7 + / 2 ^ 25).
Proof.
  intros [Ho Hf] (d & lx & C & D & E) c t (G & G0 & G1). destruct (L_ell.ell_pos ell Ho) as [Pb Pa]. set (a := ell_a ell) in *. set (b := ell_b ell) in *.
  assert (T : / 2 ^ 25 = 2 * k_tiny) by (rewrite L_karney2.tiny_eq; simpl; field). rewrite T. pose proof L_karney2.tiny_pos as TP.
  destruct (L_karney.AngNormalize_congr (to_deg deg lon2 - to_deg deg lon1)) as [k Ek]. set (dl := AngNormalize _) in *.
  assert (LL : as_rad deg lon1 + radians dl = as_rad deg lon2 + IZR k * (2 * PI)).
  { rewrite Ek. unfold Rminus. rewrite <- !to_rad. unfold radians. field. }
  destruct (L_geodesic8.conn_near a b (as_rad deg lat1) (as_rad deg az1) (as_rad deg lat2) (as_rad deg az2) d lx (as_rad deg lon1) c t s (as_rad deg lon1 + radians dl) ltac:(lra) C ltac:(now split)) as [P Q].
  rewrite LL in P, Q. destruct (turn_surface a b (as_rad deg lat2) (as_rad deg lon2) k) as [T1 T2]. rewrite T1 in P. rewrite T2 in Q. rewrite <- LL in P, Q.
  replace (as_rad deg lon1 + radians dl - (as_rad deg lon1 + lx)) with (- (lx - radians dl)) in P, Q by ring. rewrite Rabs_Ropp in P, Q. pose proof (Rabs_pos (lx - radians dl)) as R0. replace (Rabs (lx - radians dl)) with 0 in P, Q by lra.
  set (n7 := third ell ^ 7) in *. assert (N0 : 0 <= n7). { unfold n7, third. apply pow_le. apply Rmult_le_pos; [unfold a, b in *; lra|left; apply Rinv_0_lt_compat; unfold a, b in *; lra]. }
  set (w := 80 * n7 + 105 / 100 * k_tiny) in *. assert (W : 0 <= w) by (unfold w; lra).
  split.
  - eapply Rle_trans; [exact P|]. rewrite Rmult_0_r, Rplus_0_l. apply Rle_trans with (1 := D). apply Rle_trans with (a * w); [apply Rmult_le_compat_r; lra|]. apply Rmult_le_compat_l; [lra|]. unfold w. lra.
  - eapply Rle_trans; [exact Q|]. rewrite Rplus_0_l.
    apply Rle_trans with (a ^ 3 / b ^ 4 * (b * w)). { apply Rmult_le_compat_l; [|exact D]. apply Rmult_le_pos; [apply pow_le; lra|left; apply Rinv_0_lt_compat, pow_lt; lra]. }
    replace (a ^ 3 / b ^ 4 * (b * w)) with (w * (a / b) ^ 3) by (field; lra).
    assert (AB : 0 <= a / b <= 100 / 99). { split; [apply Rmult_le_pos; [lra|left; apply Rinv_0_lt_compat; lra]|]. apply Rmult_le_reg_r with b; [lra|]. unfold Rdiv at 1. rewrite Rmult_assoc, Rinv_l by lra. unfold a, b in *. lra. }
    apply Rle_trans with (w * (100 / 99) ^ 3); [apply Rmult_le_compat_l; [lra|]; apply pow_incr; exact AB|]. unfold w. lra.
Qed.

(** ** C84 *)
(** From a pole to any point 2^-25 clear of both: distance and azimuths are those of
    the meridian, up to 300 n^7 + 2^-25. *)
Theorem C84_from_pole : forall deg ell lat1 lon1 lat2 lon2 s az1 az2, round_enough ell -> at_pole deg lat1 -> clear_of_pole deg lat2 ->
  geodesic_inverse lat1 lon1 lat2 lon2 ell deg = (s, az1, az2) -> joins deg ell lat1 lon1 lat2 lon2 s az1 az2 (300 * third ell ^ 7 + / 2 ^ 25).
Proof.
  intros deg ell lat1 lon1 lat2 lon2 s az1 az2 H P1 P2 E. apply pole_joins; [exact H|]. destruct (round_geodesic ell H) as (O & Ea & Eb & Hf & En & _). destruct (clear_deg _ _ P2) as [Q2 T2]. rewrite inverse_open in E.
  destruct (L_ell.ell_pos ell (proj1 H)) as [Pb Pa]. pose proof (pole_deg _ _ P1) as Q1. rewrite <- Ea, <- Eb, <- En. set (g := get_geodesic ell) in *.
  pose proof (L_pole2.inverse_of_canon g (to_deg deg lat1) (to_deg deg lon1) (to_deg deg lat2) (to_deg deg lon2) (gd_b g * (80 * gd_n g ^ 7 + 105 / 100 * k_tiny)) 0 ltac:(lra) ltac:(lra)) as C.
  destruct (Inverse _ _ _ _ _) as [[s' x] y]. injection E as <- <- <-. rewrite !of_rad, <- !to_rad. apply C. clear C.
  set (x1 := to_deg deg lat1) in *. set (x2 := to_deg deg lat2) in *.
  assert (A1 : Rabs x1 = 90) by (destruct Q1 as [-> | ->]; [apply Rabs_right; lra|replace (-90) with (-(90)) by lra; rewrite Rabs_Ropp; apply Rabs_right; lra]). assert (A2 : Rabs x2 < 90) by (apply Rabs_def1; lra).
  unfold L_geodesic11.inv_A, L_geodesic11.inv_B, L_geodesic11.far_lat, L_geodesic11.near_lat. destruct (Rlt_dec _ _); [lra|]. rewrite L_karney6.lneg_abs, A1. replace (- (90)) with (-90) by lra.
  apply L_pole2.canon_pole_conn; [exact O|exact Hf|]. destruct (L_karney6.lneg_cases x1) as [-> | ->]; [now rewrite Rmult_1_r|]. replace (radians (x2 * -1)) with (- radians x2) by (unfold radians; field). now rewrite cos_neg.
Qed.
(** The same towards a pole. *)
Theorem C84_to_pole : forall deg ell lat1 lon1 lat2 lon2 s az1 az2, round_enough ell -> clear_of_pole deg lat1 -> at_pole deg lat2 ->
  geodesic_inverse lat1 lon1 lat2 lon2 ell deg = (s, az1, az2) -> joins deg ell lat1 lon1 lat2 lon2 s az1 az2 (300 * third ell ^ 7 + / 2 ^ 25).
Proof.
  intros deg ell lat1 lon1 lat2 lon2 s az1 az2 H P1 P2 E. apply pole_joins; [exact H|]. destruct (round_geodesic ell H) as (O & Ea & Eb & Hf & En & _). destruct (clear_deg _ _ P1) as [Q1 T1]. rewrite inverse_open in E.
  destruct (L_ell.ell_pos ell (proj1 H)) as [Pb Pa]. pose proof (pole_deg _ _ P2) as Q2. rewrite <- Ea, <- Eb, <- En. set (g := get_geodesic ell) in *.
  pose proof (L_pole2.inverse_of_canon g (to_deg deg lat1) (to_deg deg lon1) (to_deg deg lat2) (to_deg deg lon2) (gd_b g * (80 * gd_n g ^ 7 + 105 / 100 * k_tiny)) 0 ltac:(lra) ltac:(lra)) as C.
  destruct (Inverse _ _ _ _ _) as [[s' x] y]. injection E as <- <- <-. rewrite !of_rad, <- !to_rad. apply C. clear C.
  set (x1 := to_deg deg lat1) in *. set (x2 := to_deg deg lat2) in *.
  assert (A2 : Rabs x2 = 90) by (destruct Q2 as [-> | ->]; [apply Rabs_right; lra|replace (-90) with (-(90)) by lra; rewrite Rabs_Ropp; apply Rabs_right; lra]). assert (A1 : Rabs x1 < 90) by (apply Rabs_def1; lra).
  unfold L_geodesic11.inv_A, L_geodesic11.inv_B, L_geodesic11.far_lat, L_geodesic11.near_lat. destruct (Rlt_dec _ _); [|lra]. rewrite L_karney6.lneg_abs, A2. replace (- (90)) with (-90) by lra.
  apply L_pole2.canon_pole_conn; [exact O|exact Hf|]. destruct (L_karney6.lneg_cases x2) as [-> | ->]; [now rewrite Rmult_1_r|]. replace (radians (x1 * -1)) with (- radians x1) by (unfold radians; field). now rewrite cos_neg.
Qed.
(** On the Earth: within 20 cm. *)
Theorem C84_from_pole_earth : forall deg lat1 lon1 lat2 lon2 s az1 az2 c t, at_pole deg lat1 -> clear_of_pole deg lat2 ->
  geodesic_inverse lat1 lon1 lat2 lon2 None deg = (s, az1, az2) -> leaves deg None lat1 lon1 az1 c t ->
  vdist3 (surface_point (ell_a None) (ell_b None) (as_rad deg lat2) (as_rad deg lon2)) (c s) <= 2 / 10.
Proof.
  intros deg lat1 lon1 lat2 lon2 s az1 az2 c t P1 P2 E L. destruct (C84_from_pole deg None lat1 lon1 lat2 lon2 s az1 az2 wgs84_round P1 P2 E c t L) as [A _].
  apply Rle_trans with (1 := A). assert (N : third None ^ 7 <= 4 / 10 ^ 20) by (apply Rle_trans with ((16793 / 10000000) ^ 7); [apply pow_incr, wgs84_third|simpl; lra]). cbn [ell_a]. apply Rle_trans with (6378137 * (300 * (4 / 10 ^ 20) + / 2 ^ 25)); [|simpl; lra]. apply Rmult_le_compat_l; lra.
Qed.
(** That error is really there.  All points of a parallel are equally far from the
    pole; the distances returned for opposite meridians differ by at least
    1.9 * 2^-26 b (18 cm on the Earth), on every ellipsoid. *)
Lemma from_south_pole ell deg lon1 lat2 lon2 L : round_enough ell -> lat_ok deg lat2 -> (to_deg deg lat2 = -90 \/ -90 < to_deg deg lat2 < 90) ->
  Rabs (AngNormalize (to_deg deg lon2 - to_deg deg lon1)) = L ->
  L_karney6.idist (geodesic_inverse (- quarter deg) lon1 lat2 lon2 ell deg) = L_karney6.dist_of (L_karney6.canon (get_geodesic ell) (-90) (to_deg deg lat2) L).
Proof.
  intros H _ A EL. rewrite inverse_open. set (g := get_geodesic ell).
  assert (M : to_deg deg (- quarter deg) = -90) by (destruct deg; cbn [to_deg quarter]; [reflexivity|unfold degrees; field; apply PI_neq0]). rewrite M.
  assert (A9 : Rabs (-90) = 90) by (replace (-90) with (-(90)) by lra; rewrite Rabs_Ropp; apply Rabs_right; lra).
  assert (A2 : Rabs (to_deg deg lat2) <= 90) by (apply Rabs_le; lra).
  rewrite L_karney6.Inverse_eq by lra. cbv zeta. rewrite A9, EL. destruct (Rlt_dec _ _) as [X|_]; [exfalso; lra|].
  unfold L_karney6.lneg. destruct (Rlt_dec (-90) 0) as [_|X]; [|lra]. rewrite !Rmult_1_r. 
  rewrite <- (L_karney6.out_dist false (L_karney6.lpos (AngNormalize (to_deg deg lon2 - to_deg deg lon1))) 1). destruct (L_karney6.out _ _ _ _) as [[x y] z]. reflexivity.
Qed.
Theorem C84_parallel_equidistant_refuted : forall deg ell lat2 lon1 s az1 az2 s' az1' az2', round_enough ell -> clear_of_pole deg lat2 ->
  geodesic_inverse (- quarter deg) lon1 lat2 lon1 ell deg = (s, az1, az2) -> geodesic_inverse (- quarter deg) lon1 lat2 (lon1 + half deg) ell deg = (s', az1', az2') ->
  s + 19 / 10 * ell_b ell / 2 ^ 26 <= s'.
Proof.
  intros deg ell lat2 lon1 s az1 az2 s' az1' az2' H P2 E E'. destruct (round_geodesic ell H) as (O & Ea & Eb & Hf & En & _). destruct (clear_deg _ _ P2) as [Q2 T2].
  assert (M2 : to_deg deg (lon1 + half deg) = to_deg deg lon1 + 180) by (destruct deg; cbn [to_deg half]; [reflexivity|unfold degrees; field; apply PI_neq0]).
  pose proof (from_south_pole ell deg lon1 lat2 lon1 0 H (proj1 P2) (or_intror Q2) ltac:(rewrite Rminus_diag_eq, L_karney.AngNormalize_id, Rabs_R0 by lra; reflexivity)) as D.
  pose proof (from_south_pole ell deg lon1 lat2 (lon1 + half deg) 180 H (proj1 P2) (or_intror Q2) ltac:(rewrite M2; replace (to_deg deg lon1 + 180 - to_deg deg lon1) with 180 by ring; rewrite L_karney.AngNormalize_id, Rabs_right by lra; reflexivity)) as D'.
  rewrite E in D. rewrite E' in D'. unfold L_karney6.idist in D, D'. cbn [fst] in D, D'. rewrite D, D', <- Eb.
  pose proof (L_pole2.canon_pole_spread (get_geodesic ell) (to_deg deg lat2) O Hf T2) as S. rewrite L_karney2.tiny_eq in S. unfold Rdiv in *. lra.
Qed.
(** And the pole is not at distance zero from itself: named with longitudes half a
    turn apart, the same point of the surface gets a positive distance. *)
Theorem C84_pole_to_itself_refuted : forall deg ell lon1 s az1 az2, round_enough ell ->
  geodesic_inverse (- quarter deg) lon1 (- quarter deg) (lon1 + half deg) ell deg = (s, az1, az2) ->
  surface_point (ell_a ell) (ell_b ell) (as_rad deg (- quarter deg)) (as_rad deg lon1) = surface_point (ell_a ell) (ell_b ell) (as_rad deg (- quarter deg)) (as_rad deg (lon1 + half deg)) /\
  0 < 19 / 10 * ell_b ell / 2 ^ 26 <= s.
Proof.
  intros deg ell lon1 s az1 az2 H E. destruct (round_geodesic ell H) as (O & Ea & Eb & Hf & En & _). destruct (L_ell.ell_pos ell (proj1 H)) as [Pb Pa].
  assert (M : to_deg deg (- quarter deg) = -90) by (destruct deg; cbn [to_deg quarter]; [reflexivity|unfold degrees; field; apply PI_neq0]).
  assert (M2 : to_deg deg (lon1 + half deg) = to_deg deg lon1 + 180) by (destruct deg; cbn [to_deg half]; [reflexivity|unfold degrees; field; apply PI_neq0]).
  assert (K : lat_ok deg (- quarter deg)) by (pose proof PI_RGT_0; destruct deg; unfold lat_ok; cbn [quarter half]; lra).
  pose proof (from_south_pole ell deg lon1 (- quarter deg) (lon1 + half deg) 180 H K (or_introl M) ltac:(rewrite M2; replace (to_deg deg lon1 + 180 - to_deg deg lon1) with 180 by ring; rewrite L_karney.AngNormalize_id, Rabs_right by lra; reflexivity)) as D.
  rewrite E in D. unfold L_karney6.idist in D. cbn [fst] in D. rewrite D, M, <- Eb.
  pose proof (L_pole2.canon_pole_self (get_geodesic ell) O Hf) as S. rewrite L_karney2.tiny_eq in S. split.
  - assert (C : cos (as_rad deg (- quarter deg)) = 0). { rewrite <- to_rad, M. replace (radians (-90)) with (- (PI / 2)) by (unfold radians; field). rewrite cos_neg. apply cos_PI2. }
    unfold surface_point. cbv zeta. rewrite !C. rewrite !Rmult_0_r, !Rmult_0_l. reflexivity.
  - rewrite Eb in *. assert (0 < / 2 ^ 26) by (apply Rinv_0_lt_compat, pow_lt; lra). split; [unfold Rdiv; apply Rmult_lt_0_compat; lra|]. unfold Rdiv in *. lra.
Qed.
(** The hypotheses are met: the south pole and a point 45 degrees north, on WGS84. *)
Example C84_example : at_pole true (-90) /\ at_pole true 90 /\ clear_of_pole true 45 /\ round_enough None.
Proof.
  assert (C9 : cos (90 * PI / 180) = 0) by (replace (90 * PI / 180) with (PI / 2) by field; apply cos_PI2).
  assert (C4 : / 2 ^ 25 <= cos (45 * PI / 180)).
  { replace (45 * PI / 180) with (PI / 4) by field. rewrite cos_PI4. pose proof sqrt_lt_R0 2 ltac:(lra) as S0. assert (S2 : sqrt 2 <= 2) by (rewrite <- (sqrt_square 2) at 2 by lra; apply sqrt_le_1_alt; lra).
    apply Rle_trans with (/ 2); [simpl; lra|]. apply Rmult_le_reg_r with (sqrt 2); [lra|]. unfold Rdiv. rewrite Rmult_assoc, Rinv_l by lra. lra. }
  repeat apply conj; try exact (proj1 wgs84_round); try exact (proj2 wgs84_round); cbn [quarter half as_rad]; try lra.
  replace (-90 * PI / 180) with (- (90 * PI / 180)) by field. now rewrite cos_neg.
Qed.
