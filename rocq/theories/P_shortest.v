(** Properties C85, C86: geodesic_inverse returns the length of the shortest path on the
    surface; its distances obey the triangle inequality and do not depend on the order
    of the two points. *)
From Coq Require Import Reals Lra Lia Psatz.
From Coquelicot Require Import Coquelicot.
From Verif Require Import PyMath M_ellipsoid M_karney Spec Spec_geodesic.
From Verif Require Import P_karney P_geodesic P_vincenty P_inverse P_vinacc P_converge P_distance.
From Verif Require L_PyMath L_aer L_ell L_karney2 L_series2 L_nvector L_vin3 L_geodesic1 L_geodesic4 L_short5 L_short6 L_short7 L_ecefacc2.
Open Scope R_scope.

(** ** Specification *)
(** The point of the surface at a latitude and a longitude. *)
Definition place (deg : bool) (ell : option Ellipsoid) (lat lon : R) : vec3 :=
  surface_point (ell_a ell) (ell_b ell) (as_rad deg lat) (as_rad deg lon).
(** A path on the surface from [P] to [Q], walked at speed at most 1 in the time [L]:
    between two instants the traveller moves, in a straight line, no further than the
    time elapsed. No smoothness is asked for. *)
Definition surface_walk (ell : option Ellipsoid) (d : R -> vec3) (L : R) (P Q : vec3) : Prop :=
  0 <= L /\ d 0 = P /\ d L = Q /\
  (forall x, 0 <= x <= L -> on_ellipsoid (ell_a ell) (ell_b ell) (d x)) /\
  (forall x y, 0 <= x <= L -> 0 <= y <= L -> vdist3 (d x) (d y) <= Rabs (x - y)).
(** Two points far enough from the poles, from being antipodal and from being on
    opposite meridians (and not both on the equator: see C85_shortest_equator). *)
Definition well_apart (T : R) (deg : bool) (ell : option Ellipsoid) (lat1 lon1 lat2 lon2 : R) : Prop :=
  off_pole deg lat1 /\ off_pole deg lat2 /\ (lat1 <> 0 \/ lat2 <> 0) /\
  unit_angle (dir deg lat1 lon1) (dir deg lat2 lon2) + 4 * flat ell <= T /\ meridian_gap deg lon1 lon2 <= T.
(** The bound [T], in radians: at most 2.67 (153 degrees), less for flatter bodies. *)
Definition bound_ok (T : R) (ell : option Ellipsoid) : Prop := T <= 267 / 100 /\ 50 * flat ell * T <= sin T.

Lemma pi_3145 : PI < 3145 / 1000.
Proof.
  apply Rnot_le_lt; intros X. assert (C : cos (15725 / 10000) < 0).
  { replace (15725 / 10000) with (2 * (78625 / 100000)) by lra. rewrite cos_2a_sin. destruct (L_series2.sin_taylor (78625 / 100000)) as (th & Th & E). apply Rabs_le_between in Th.
    assert (S : 7073 / 10000 <= sin (78625 / 100000)) by (rewrite E; lra). nra. }
  pose proof (cos_ge_0 (15725 / 10000) ltac:(lra) ltac:(lra)). lra.
Qed.
Lemma cos_off deg lat : off_pole deg lat -> 0 < cos (as_rad deg lat).
Proof. intros [_ B]. apply Rlt_le_trans with (2 := B). apply Rinv_0_lt_compat, pow_lt. lra. Qed.
Lemma walk_is ell d L P Q : round_enough ell -> surface_walk ell d L P Q <-> L_short7.walk (ell_a ell) (flat ell) d L P Q.
Proof. intros H. destruct (flat_range ell H) as (_ & Eb & _). unfold surface_walk, L_short7.walk. rewrite <- Eb. reflexivity. Qed.
Lemma err_small ell : round_enough ell -> 0 <= 300 * third ell ^ 7 + 8 / 2 ^ 52 <= / 2000.
Proof.
  intros H. destruct (L_ell.ell_pos ell (proj1 H)) as [Pb Pa]. pose proof (third_pos ell H) as T0. pose proof H as [_ Hf].
  assert (T1 : third ell <= 1 / 150). { unfold third. apply Rmult_le_reg_r with (ell_a ell + ell_b ell); [lra|]. unfold Rdiv at 1. rewrite Rmult_assoc, Rinv_l by lra. lra. }
  pose proof (third7 ell H) as Z. assert (T7 : third ell ^ 7 <= (1 / 150) ^ 7) by (apply pow_incr; lra). split; [apply Rplus_le_le_0_compat; [lra|simpl; lra]|].
  apply Rle_trans with (300 * (1 / 150) ^ 7 + 8 / 2 ^ 52); [lra|simpl; lra].
Qed.
Lemma length_bound deg ell lat1 lon1 lat2 lon2 s az1 az2 : round_enough ell -> off_pole deg lat1 -> off_pole deg lat2 ->
  geodesic_inverse lat1 lon1 lat2 lon2 ell deg = (s, az1, az2) -> 0 <= s <= 315 / 100 * ell_a ell.
Proof.
  intros H P1 P2 E. destruct (C82_distance_range deg ell lat1 lon1 lat2 lon2 s az1 az2 H P1 P2 E) as [S U]. split; [exact S|]. apply Rle_trans with (1 := U). pose proof (err_small ell H) as [_ B]. pose proof pi_3145 as PU. pose proof PI_RGT_0 as PP. destruct (flat_range ell H) as (_ & _ & Pa & _).
  pose proof (third7 ell H) as Z. assert (0 < 8 / 2 ^ 52) by (simpl; lra). rewrite (Rmult_comm PI), Rmult_assoc, (Rmult_comm (315 / 100)). apply Rmult_le_compat_l; [lra|]. nra.
Qed.
Lemma unit_nrm ell P : round_enough ell -> on_ellipsoid (ell_a ell) (ell_b ell) P -> is_unit (L_short6.nrm (ell_a ell) (flat ell) P).
Proof. intros H O. destruct (flat_range ell H) as (F & Eb & Pa & _). rewrite Eb in O. apply (L_short6.on_unit (ell_a ell) (flat ell) Pa F P). exact O. Qed.
Lemma place_on deg ell lat lon : round_enough ell -> on_ellipsoid (ell_a ell) (ell_b ell) (place deg ell lat lon).
Proof. intros H. destruct (C70_geodesic_exists deg ell lat lon 0 (proj1 H)) as (c & t & G & G0 & _). unfold place. rewrite <- G0. apply (G 0). Qed.
(** The geodesic that geodesic_inverse describes is shorter than 2.7 a. *)
Lemma within_range deg ell lat1 lon1 lat2 lon2 s az1 az2 err c t : round_enough ell -> off_pole deg lat1 -> off_pole deg lat2 ->
  unit_angle (dir deg lat1 lon1) (dir deg lat2 lon2) + 4 * flat ell <= 267 / 100 -> 0 <= s <= 315 / 100 * ell_a ell -> err <= / 2000 ->
  leaves deg ell lat1 lon1 az1 c t -> joins deg ell lat1 lon1 lat2 lon2 s az1 az2 err -> 0 <= s <= 27 / 10 * ell_a ell.
Proof.
  intros H P1 P2 AN S B LV J. destruct (J c t LV) as [A _]. destruct LV as (G & G0 & _). fold (place deg ell lat1 lon1) in G0. fold (place deg ell lat2 lon2) in A.
  split; [lra|]. apply Rnot_lt_le; intros X. destruct (flat_range ell H) as (F & Eb & Pa & _). pose proof (cos_off _ _ P1) as C1. pose proof (cos_off _ _ P2) as C2.
  pose proof (place_on deg ell lat1 lon1 H) as O1. pose proof (place_on deg ell lat2 lon2 H) as O2. assert (OE : on_ellipsoid (ell_a ell) (ell_b ell) (c s)) by apply (G s).
  pose proof (unit_nrm ell _ H O1) as U1. pose proof (unit_nrm ell _ H O2) as U2. pose proof (unit_nrm ell _ H OE) as UE. unfold place in U1, U2, O1, O2, G0, A. rewrite Eb in *.
  pose proof (L_short7.far_end (ell_a ell) (flat ell) Pa F c t s G ltac:(lra)) as FE. rewrite G0 in FE.
  pose proof (L_short7.nrm_sep (ell_a ell) (flat ell) Pa F _ (as_rad deg lon1) _ (as_rad deg lon2) C1 C2) as NS. change (unit_normal (as_rad deg lat1) (as_rad deg lon1)) with (dir deg lat1 lon1) in NS. change (unit_normal (as_rad deg lat2) (as_rad deg lon2)) with (dir deg lat2 lon2) in NS.
  pose proof (L_short7.ang_near (ell_a ell) (flat ell) Pa F _ _ O2 OE) as NR. pose proof (L_vin3.angle_triangle _ _ _ U1 U2 UE) as TR.
  assert (D : vdist3 (surface_point (ell_a ell) (ell_a ell * (1 - flat ell)) (as_rad deg lat2) (as_rad deg lon2)) (c s) / ell_a ell <= err).
  { apply Rmult_le_reg_r with (ell_a ell); [lra|]. unfold Rdiv. rewrite Rmult_assoc, Rinv_l by lra. lra. }
  lra.
Qed.

(** ** C85 *)
(** Geodesics of the ellipsoid are shortest: no path on the surface from one end of a
    geodesic of length [s] to the other is shorter, for lengths up to 2.7 a. *)
Theorem C85_geodesics_are_shortest : forall ell c t s d L, round_enough ell -> unit_geodesic (ell_a ell) (ell_b ell) c t -> 0 <= s <= 27 / 10 * ell_a ell ->
  surface_walk ell d L (c 0) (c s) -> s <= L.
Proof.
  intros ell c t s d L H G S W. apply walk_is in W; [|exact H]. destruct (flat_range ell H) as (F & Eb & Pa & _). rewrite Eb in G.
  pose proof (L_short7.no_shorter_near (ell_a ell) (flat ell) Pa F c t s d L (c s) G S ltac:(apply (G s)) W) as Q.
  replace (vdist3 (c s) (c s)) with 0 in Q; [lra|]. unfold vdist3, vnorm, vdot, vsub. destruct (c s) as [[x y] z]. symmetry. rewrite <- sqrt_0. f_equal. ring.
Qed.
(** Whenever the answer is that of a geodesic joining the points up to [err] (C71,
    C72): no path from the first point to the second is shorter than the distance
    returned, and some path is no longer, up to small multiples of [err]. *)
Theorem C85_shortest_if_joined : forall deg ell lat1 lon1 lat2 lon2 s az1 az2 err, round_enough ell -> off_pole deg lat1 -> off_pole deg lat2 ->
  unit_angle (dir deg lat1 lon1) (dir deg lat2 lon2) + 4 * flat ell <= 267 / 100 -> err <= / 2000 ->
  geodesic_inverse lat1 lon1 lat2 lon2 ell deg = (s, az1, az2) -> joins deg ell lat1 lon1 lat2 lon2 s az1 az2 err ->
  (forall d L, surface_walk ell d L (place deg ell lat1 lon1) (place deg ell lat2 lon2) -> s <= L + 27 / 10 * (ell_a ell * err)) /\
  (exists d L, surface_walk ell d L (place deg ell lat1 lon1) (place deg ell lat2 lon2) /\ L <= s + 204 / 100 * (ell_a ell * err)).
Proof.
  intros deg ell lat1 lon1 lat2 lon2 s az1 az2 err H P1 P2 AN B E J. destruct (C70_geodesic_exists deg ell lat1 lon1 az1 (proj1 H)) as (c & t & LV). destruct (J c t LV) as [A _].
  pose proof (within_range deg ell lat1 lon1 lat2 lon2 s az1 az2 err c t H P1 P2 AN (length_bound _ _ _ _ _ _ _ _ _ H P1 P2 E) B LV J) as S. destruct LV as (G & G0 & _). fold (place deg ell lat1 lon1) in G0. fold (place deg ell lat2 lon2) in A.
  destruct (flat_range ell H) as (F & Eb & Pa & _). pose proof (place_on deg ell lat2 lon2 H) as O2. rewrite Eb in O2, G. rewrite <- G0. split.
  - intros d L W. apply walk_is in W; [|exact H]. pose proof (L_short7.no_shorter_near (ell_a ell) (flat ell) Pa F c t s d L _ G S O2 W) as Q. lra.
  - destruct (L_short7.geo_walk_near (ell_a ell) (flat ell) Pa F c t s _ G (proj1 S) O2) as (d & L & W & Q); [apply Rle_trans with (1 := A); nra|]. exists d, L. split; [apply walk_is; assumption|lra].
Qed.
(** With no condition on the iteration: every two points well apart. *)
Theorem C85_shortest : forall T deg ell lat1 lon1 lat2 lon2 s az1 az2, round_enough ell -> bound_ok T ell -> well_apart T deg ell lat1 lon1 lat2 lon2 ->
  geodesic_inverse lat1 lon1 lat2 lon2 ell deg = (s, az1, az2) ->
  forall d L, surface_walk ell d L (place deg ell lat1 lon1) (place deg ell lat2 lon2) -> s <= L + 27 / 10 * (ell_a ell * (300 * third ell ^ 7 + 8 / 2 ^ 52)).
Proof.
  intros T deg ell lat1 lon1 lat2 lon2 s az1 az2 H [B1 B2] (P1 & P2 & NZ & AN & GP) E. pose proof pi_314. apply (C85_shortest_if_joined deg ell lat1 lon1 lat2 lon2 s az1 az2); try assumption; [lra|apply (err_small ell H)|].
  apply (C71_inverse_accuracy_away T); try assumption; lra.
Qed.
Theorem C85_attained : forall T deg ell lat1 lon1 lat2 lon2 s az1 az2, round_enough ell -> bound_ok T ell -> well_apart T deg ell lat1 lon1 lat2 lon2 ->
  geodesic_inverse lat1 lon1 lat2 lon2 ell deg = (s, az1, az2) ->
  exists d L, surface_walk ell d L (place deg ell lat1 lon1) (place deg ell lat2 lon2) /\ L <= s + 204 / 100 * (ell_a ell * (300 * third ell ^ 7 + 8 / 2 ^ 52)).
Proof.
  intros T deg ell lat1 lon1 lat2 lon2 s az1 az2 H [B1 B2] (P1 & P2 & NZ & AN & GP) E. pose proof pi_314. apply (C85_shortest_if_joined deg ell lat1 lon1 lat2 lon2 s az1 az2); try assumption; [lra|apply (err_small ell H)|].
  apply (C71_inverse_accuracy_away T); try assumption; lra.
Qed.
(** Two points of the equator, less than 2.67 - 4 f radians apart: exactly. *)
Lemma equator_dirs deg lon1 L : 0 < as_rad deg L < PI -> as_rad deg (lon1 + L) = as_rad deg lon1 + as_rad deg L -> unit_angle (dir deg 0 lon1) (dir deg 0 (lon1 + L)) = as_rad deg L.
Proof.
  intros HL EL. unfold unit_angle, dir. replace (as_rad deg 0) with 0 by (destruct deg; unfold as_rad; lra). unfold unit_normal. rewrite sin_0, cos_0, EL. cbn [vdot].
  match goal with |- acos ?z = _ => replace z with (cos (as_rad deg L)) end; [apply acos_cos; lra|]. replace (as_rad deg L) with ((as_rad deg lon1 + as_rad deg L) - as_rad deg lon1) at 1 by ring. rewrite cos_minus. ring.
Qed.
Theorem C85_shortest_equator : forall deg ell lon1 x s az1 az2, round_enough ell -> 0 < as_rad deg x -> as_rad deg x + 4 * flat ell <= 267 / 100 ->
  geodesic_inverse 0 lon1 0 (lon1 + x) ell deg = (s, az1, az2) ->
  s = ell_a ell * as_rad deg x /\
  (forall d L, surface_walk ell d L (place deg ell 0 lon1) (place deg ell 0 (lon1 + x)) -> s <= L) /\
  (exists d, surface_walk ell d s (place deg ell 0 lon1) (place deg ell 0 (lon1 + x))).
Proof.
  intros deg ell lon1 x s az1 az2 H X0 X1 E. pose proof pi_314 as PP. destruct (flat_range ell H) as (F & Eb & Pa & Pb).
  assert (HD : 0 < x < half deg). { destruct deg; cbn [half] in *; unfold as_rad in *; [|lra]. split; [apply Rmult_lt_reg_r with PI; lra|apply Rmult_lt_reg_r with PI; lra]. }
  assert (HB : x <= half deg * (ell_b ell / ell_a ell)).
  { replace (ell_b ell / ell_a ell) with (1 - flat ell) by (rewrite Eb; field; lra). destruct deg; cbn [half] in *; unfold as_rad in *; [apply Rmult_le_reg_r with (PI / 180); [lra|]|]; nra. }
  destruct (C70_geodesic_exists deg ell 0 lon1 az1 (proj1 H)) as (c & t & LV). destruct (C72_inverse_equator lon1 x ell deg s az1 az2 c t (proj1 H) HD HB E LV) as [CE _].
  destruct (C68_equator lon1 x ell deg 0 (proj1 H) HD HB) as [Q _]. simpl IZR in Q. rewrite Rmult_0_l, Rplus_0_r, E in Q. injection Q as Es _ _.
  assert (SV : s = ell_a ell * as_rad deg x) by (rewrite Es; ring). split; [exact SV|].
  destruct LV as (G & G0 & _). fold (place deg ell 0 lon1) in G0. replace (surface_point (ell_a ell) (ell_b ell) 0 (as_rad deg (lon1 + x))) with (place deg ell 0 (lon1 + x)) in CE by (unfold place; f_equal; destruct deg; unfold as_rad; lra).
  rewrite <- G0, <- CE. split.
  - intros d L W. apply (C85_geodesics_are_shortest ell c t s d L H G); [|exact W]. rewrite SV. split; [apply Rmult_le_pos; lra|]. rewrite (Rmult_comm (27 / 10)). apply Rmult_le_compat_l; lra.
  - exists c. apply walk_is; [exact H|]. rewrite Eb in G. apply (L_short7.walk_geo (ell_a ell) (flat ell) c t s); [exact G|rewrite SV; apply Rmult_le_pos; lra].
Qed.
(** On the Earth: points whose normals and meridians are at most 2.65 rad (151 degrees)
    apart. *)
Lemma earth_bound : bound_ok (267 / 100) None.
Proof.
  pose proof wgs84_flat as F. pose proof pi_314 as PP. split; [lra|]. apply Rle_trans with (50 * (336 / 100000) * (267 / 100)); [apply Rmult_le_compat_r; lra|]. rewrite <- sin_PI_x. assert (Q : sin (47 / 100) <= sin (PI - 267 / 100)) by (pose proof PI_4; apply sin_incr_1; lra).
  destruct (L_series2.sin_taylor (47 / 100)) as (th & Th & Es). apply Rabs_le_between in Th. rewrite Es in Q. lra.
Qed.
Theorem C85_shortest_earth : forall deg lat1 lon1 lat2 lon2 s az1 az2, off_pole deg lat1 -> off_pole deg lat2 -> (lat1 <> 0 \/ lat2 <> 0) ->
  unit_angle (dir deg lat1 lon1) (dir deg lat2 lon2) <= 265 / 100 -> meridian_gap deg lon1 lon2 <= 265 / 100 ->
  geodesic_inverse lat1 lon1 lat2 lon2 None deg = (s, az1, az2) ->
  (forall d L, surface_walk None d L (place deg None lat1 lon1) (place deg None lat2 lon2) -> s <= L + 4 / 10 ^ 8) /\
  (exists d L, surface_walk None d L (place deg None lat1 lon1) (place deg None lat2 lon2) /\ L <= s + 3 / 10 ^ 8).
Proof.
  intros deg lat1 lon1 lat2 lon2 s az1 az2 P1 P2 NZ AN GP E. pose proof wgs84_flat as F.
  destruct (C85_shortest_if_joined deg None lat1 lon1 lat2 lon2 s az1 az2 (19 / 10 ^ 16) wgs84_round P1 P2) as [A (d & L & W & B)]; [lra|simpl; lra|exact E|now apply C71_inverse_accuracy_earth|]. split.
  - intros d' L' W'. eapply Rle_trans; [exact (A d' L' W')|]. apply Rplus_le_compat_l. cbn [ell_a]. simpl. lra.
  - exists d, L. split; [exact W|]. eapply Rle_trans; [exact B|]. apply Rplus_le_compat_l. cbn [ell_a]. simpl. lra.
Qed.

(** ** C86 *)
Theorem C86_triangle : forall T deg ell lat1 lon1 lat2 lon2 lat3 lon3 s12 s23 s13 a b a' b' a'' b'', round_enough ell -> bound_ok T ell ->
  well_apart T deg ell lat1 lon1 lat2 lon2 -> well_apart T deg ell lat2 lon2 lat3 lon3 -> well_apart T deg ell lat1 lon1 lat3 lon3 ->
  geodesic_inverse lat1 lon1 lat2 lon2 ell deg = (s12, a, b) -> geodesic_inverse lat2 lon2 lat3 lon3 ell deg = (s23, a', b') -> geodesic_inverse lat1 lon1 lat3 lon3 ell deg = (s13, a'', b'') ->
  s13 <= s12 + s23 + 7 * (ell_a ell * (300 * third ell ^ 7 + 8 / 2 ^ 52)).
Proof.
  intros T deg ell lat1 lon1 lat2 lon2 lat3 lon3 s12 s23 s13 a b a' b' a'' b'' H B W12 W23 W13 E12 E23 E13.
  destruct (C85_attained T deg ell _ _ _ _ _ _ _ H B W12 E12) as (d1 & L1 & D1 & Q1). destruct (C85_attained T deg ell _ _ _ _ _ _ _ H B W23 E23) as (d2 & L2 & D2 & Q2).
  apply walk_is in D1; [|exact H]. apply walk_is in D2; [|exact H]. destruct (L_short7.walk_join (ell_a ell) (flat ell) d1 L1 d2 L2 _ _ _ D1 D2) as [d D]. apply walk_is in D; [|exact H].
  pose proof (C85_shortest T deg ell _ _ _ _ _ _ _ H B W13 E13 d (L1 + L2) D) as Q. destruct (flat_range ell H) as (_ & _ & Pa & _). pose proof (err_small ell H) as [Z _].
  assert (0 <= ell_a ell * (300 * third ell ^ 7 + 8 / 2 ^ 52)) by (apply Rmult_le_pos; lra). lra.
Qed.
Lemma well_apart_sym T deg ell lat1 lon1 lat2 lon2 : well_apart T deg ell lat1 lon1 lat2 lon2 -> well_apart T deg ell lat2 lon2 lat1 lon1.
Proof.
  intros (P1 & P2 & NZ & A & G). unfold well_apart, meridian_gap in *. rewrite (L_nvector.angle_sym (dir deg lat2 lon2) (dir deg lat1 lon1)).
  replace (as_rad deg lon1 - as_rad deg lon2) with (- (as_rad deg lon2 - as_rad deg lon1)) by ring. rewrite cos_neg. tauto.
Qed.
Lemma one_way T deg ell lat1 lon1 lat2 lon2 s a b s' a' b' : round_enough ell -> bound_ok T ell -> well_apart T deg ell lat1 lon1 lat2 lon2 ->
  geodesic_inverse lat1 lon1 lat2 lon2 ell deg = (s, a, b) -> geodesic_inverse lat2 lon2 lat1 lon1 ell deg = (s', a', b') ->
  s <= s' + 5 * (ell_a ell * (300 * third ell ^ 7 + 8 / 2 ^ 52)).
Proof.
  intros H B W E E'. destruct (C85_attained T deg ell _ _ _ _ _ _ _ H B (well_apart_sym _ _ _ _ _ _ _ W) E') as (d1 & L1 & D1 & Q1). apply walk_is in D1; [|exact H].
  destruct (L_short7.walk_back (ell_a ell) (flat ell) d1 L1 _ _ D1) as [d D]. apply walk_is in D; [|exact H]. pose proof (C85_shortest T deg ell _ _ _ _ _ _ _ H B W E d L1 D) as Q. destruct (flat_range ell H) as (_ & _ & Pa & _). pose proof (err_small ell H) as [Z _].
  assert (0 <= ell_a ell * (300 * third ell ^ 7 + 8 / 2 ^ 52)) by (apply Rmult_le_pos; lra). lra.
Qed.
Theorem C86_symmetric : forall T deg ell lat1 lon1 lat2 lon2 s a b s' a' b', round_enough ell -> bound_ok T ell -> well_apart T deg ell lat1 lon1 lat2 lon2 ->
  geodesic_inverse lat1 lon1 lat2 lon2 ell deg = (s, a, b) -> geodesic_inverse lat2 lon2 lat1 lon1 ell deg = (s', a', b') ->
  Rabs (s - s') <= 5 * (ell_a ell * (300 * third ell ^ 7 + 8 / 2 ^ 52)).
Proof.
  intros T deg ell lat1 lon1 lat2 lon2 s a b s' a' b' H B W E E'. pose proof (one_way T deg ell _ _ _ _ _ _ _ _ _ _ H B W E E'). pose proof (one_way T deg ell _ _ _ _ _ _ _ _ _ _ H B (well_apart_sym _ _ _ _ _ _ _ W) E' E). apply Rabs_le. lra.
Qed.
Lemma earth_err : ell_a None * (300 * third None ^ 7 + 8 / 2 ^ 52) <= 12 / 10 ^ 9.
Proof.
  assert (Q : 300 * third None ^ 7 <= / 10 ^ 16). { apply Rle_trans with (300 * (16793 / 10000000) ^ 7); [|simpl; lra]. apply Rmult_le_compat_l; [lra|]. apply pow_incr, wgs84_third. }
  apply Rle_trans with (6378137 * (/ 10 ^ 16 + 8 / 2 ^ 52)); [cbn [ell_a]; apply Rmult_le_compat_l; lra|simpl; lra].
Qed.
Theorem C86_triangle_earth : forall deg lat1 lon1 lat2 lon2 lat3 lon3 s12 s23 s13 a b a' b' a'' b'',
  well_apart (267 / 100) deg None lat1 lon1 lat2 lon2 -> well_apart (267 / 100) deg None lat2 lon2 lat3 lon3 -> well_apart (267 / 100) deg None lat1 lon1 lat3 lon3 ->
  geodesic_inverse lat1 lon1 lat2 lon2 None deg = (s12, a, b) -> geodesic_inverse lat2 lon2 lat3 lon3 None deg = (s23, a', b') -> geodesic_inverse lat1 lon1 lat3 lon3 None deg = (s13, a'', b'') ->
  s13 <= s12 + s23 + / 10 ^ 7.
Proof.
  intros deg lat1 lon1 lat2 lon2 lat3 lon3 s12 s23 s13 a b a' b' a'' b'' W12 W23 W13 E12 E23 E13. eapply Rle_trans; [exact (C86_triangle _ deg None _ _ _ _ _ _ _ _ _ _ _ _ _ _ _ wgs84_round earth_bound W12 W23 W13 E12 E23 E13)|].
  pose proof earth_err as Q. simpl in *. lra.
Qed.
Theorem C86_symmetric_earth : forall deg lat1 lon1 lat2 lon2 s a b s' a' b', well_apart (267 / 100) deg None lat1 lon1 lat2 lon2 ->
  geodesic_inverse lat1 lon1 lat2 lon2 None deg = (s, a, b) -> geodesic_inverse lat2 lon2 lat1 lon1 None deg = (s', a', b') -> Rabs (s - s') <= / 10 ^ 7.
Proof.
  intros deg lat1 lon1 lat2 lon2 s a b s' a' b' W E E'. eapply Rle_trans; [exact (C86_symmetric _ deg None _ _ _ _ _ _ _ _ _ _ wgs84_round earth_bound W E E')|]. pose proof earth_err as Q. simpl in *. lra.
Qed.
(** The hypotheses are met: points 120 degrees apart, in both orders; and a walk exists. *)
Example C86_example_pair : well_apart (267 / 100) true None 45 10 (-45) 100 /\ well_apart (267 / 100) true None (-45) 100 45 10.
Proof.
  assert (W : well_apart (267 / 100) true None 45 10 (-45) 100).
  { destruct C71_example_earth as (P1 & P2 & A & G). pose proof wgs84_flat as F. unfold well_apart. repeat split; try apply P1; try apply P2; [left; lra|lra|lra]. }
  split; [exact W|now apply well_apart_sym].
Qed.
Example C86_example_triangle : well_apart (267 / 100) true None 45 10 (-45) 100 /\ well_apart (267 / 100) true None (-45) 100 45 100 /\ well_apart (267 / 100) true None 45 10 45 100.
Proof.
  destruct C86_example_pair as [W1 _]. split; [exact W1|]. destruct W1 as (P1 & P2 & _). pose proof wgs84_flat as F. pose proof pi_314 as PL. pose proof pi_3145 as PU.
  set (q := 1 / sqrt 2). assert (Q : q * q = / 2). { unfold q. transitivity (/ (sqrt 2 * sqrt 2)); [field; apply Rgt_not_eq, sqrt_lt_R0; lra|rewrite sqrt_sqrt; lra]. }
  assert (A1 : unit_angle (dir true (-45) 100) (dir true 45 100) = PI / 2).
  { unfold unit_angle, dir, as_rad. replace (45 * PI / 180) with (PI / 4) by field. replace (-45 * PI / 180) with (- (PI / 4)) by field. unfold unit_normal. cbn [vdot]. rewrite sin_neg, cos_neg, sin_PI4, cos_PI4. fold q. set (u := 100 * PI / 180). pose proof (L_PyMath.sc1 u) as SC.
    match goal with |- acos ?z = _ => replace z with (q * q * (sin u * sin u + cos u * cos u) - q * q) by ring end. rewrite SC. replace (q * q * 1 - q * q) with 0 by ring. apply acos_0. }
  assert (A2 : unit_angle (dir true 45 10) (dir true 45 100) = PI / 3).
  { unfold unit_angle, dir, as_rad. replace (45 * PI / 180) with (PI / 4) by field. replace (100 * PI / 180) with (PI / 2 + 10 * PI / 180) by field. unfold unit_normal. cbn [vdot]. set (u := 10 * PI / 180). rewrite sin_plus, cos_plus, sin_PI2, cos_PI2, sin_PI4, cos_PI4. fold q.
    match goal with |- acos ?z = _ => replace z with (q * q) by ring end. rewrite Q. replace (/ 2) with (cos (PI / 3)) by (rewrite cos_PI3; lra). apply acos_cos; lra. }
  unfold well_apart, meridian_gap. rewrite A1, A2. replace (as_rad true 100 - as_rad true 100) with 0 by ring. rewrite cos_0, acos_1. replace (as_rad true 100 - as_rad true 10) with (PI / 2) by (unfold as_rad; field). rewrite acos_cos by lra.
  split; [split; [exact P2|split; [exact P1|split; [right; lra|lra]]]|split; [exact P1|split; [exact P1|split; [left; lra|lra]]]].
Qed.
Example C85_example_walk : exists d L, surface_walk None d L (place true None 45 10) (place true None (-45) 100).
Proof.
  destruct (geodesic_inverse 45 10 (-45) 100 None true) as [[s az1] az2] eqn:E. destruct (C85_attained (267 / 100) true None 45 10 (-45) 100 s az1 az2 wgs84_round earth_bound (proj1 C86_example_pair) E) as (d & L & W & _). now exists d, L.
Qed.

(** ** C87 *)
(** geodesic_inverse undoes geodesic_direct: the distance between the starting point and
    the point reached after the distance [s] is [s], for every [s] up to 2.7 a, provided
    that the two points are well apart. *)
Theorem C87_distance_recovered : forall T deg ell lat1 lon1 az s lat2 lon2 az2 s' a b, round_enough ell -> bound_ok T ell -> 0 <= s <= 27 / 10 * ell_a ell ->
  geodesic_direct lat1 lon1 az s ell deg = (lat2, lon2, az2) -> well_apart T deg ell lat1 lon1 lat2 lon2 ->
  geodesic_inverse lat1 lon1 lat2 lon2 ell deg = (s', a, b) -> Rabs (s' - s) <= ell_a ell * (2500 * third ell ^ 7 + 22 / 2 ^ 52).
Proof.
  intros T deg ell lat1 lon1 az s lat2 lon2 az2 s' a b H B S D W E. destruct (C70_geodesic_exists deg ell lat1 lon1 az (proj1 H)) as (c & t & LV). pose proof W as (P1 & P2 & _).
  destruct (C70_direct_accuracy deg ell lat1 lon1 az s c t lat2 lon2 az2 H P1 LV D P2) as [X _]. cbv zeta in X. fold (place deg ell lat2 lon2) in X. destruct LV as (G & G0 & _). fold (place deg ell lat1 lon1) in G0.
  destruct (flat_range ell H) as (F & Eb & Pa & Pb). pose proof (third7 ell H) as N7. pose proof (err_small ell H) as [Z0 Z1]. assert (K0 : 0 < 8 / 2 ^ 52) by (simpl; lra).
  assert (SB : Rabs s / ell_b ell <= 4). { rewrite Rabs_right by lra. apply Rmult_le_reg_r with (ell_b ell); [lra|]. unfold Rdiv. rewrite Rmult_assoc, Rinv_l by lra. nra. }
  assert (DX : vdist3 (place deg ell lat2 lon2) (c s) <= ell_a ell * (620 * third ell ^ 7)). { apply Rle_trans with (1 := X). apply Rmult_le_compat_l; [lra|]. rewrite (Rmult_comm 620). apply Rmult_le_compat_l; lra. }
  pose proof (place_on deg ell lat2 lon2 H) as O2. rewrite Eb in O2, G.
  destruct (C85_attained T deg ell _ _ _ _ _ _ _ H B W E) as (d1 & L1 & D1 & Q1). apply walk_is in D1; [|exact H]. rewrite <- G0 in D1.
  pose proof (L_short7.no_shorter_near (ell_a ell) (flat ell) Pa F c t s d1 L1 _ G S O2 D1) as Q2.
  destruct (L_short7.geo_walk_near (ell_a ell) (flat ell) Pa F c t s _ G (proj1 S) O2) as (d2 & L2 & D2 & Q3). { apply Rle_trans with (1 := DX). rewrite <- (Rmult_1_r (ell_a ell)) at 2. apply Rmult_le_compat_l; lra. }
  rewrite G0 in D2. apply walk_is in D2; [|exact H]. pose proof (C85_shortest T deg ell _ _ _ _ _ _ _ H B W E d2 L2 D2) as Q4.
  replace (ell_a ell * (2500 * third ell ^ 7 + 22 / 2 ^ 52)) with (2500 * (ell_a ell * third ell ^ 7) + 22 / 8 * (ell_a ell * (8 / 2 ^ 52))) by field.
  replace (ell_a ell * (300 * third ell ^ 7 + 8 / 2 ^ 52)) with (300 * (ell_a ell * third ell ^ 7) + ell_a ell * (8 / 2 ^ 52)) in * by ring. replace (ell_a ell * (620 * third ell ^ 7)) with (620 * (ell_a ell * third ell ^ 7)) in DX by ring.
  assert (0 <= ell_a ell * third ell ^ 7) by (apply Rmult_le_pos; lra). assert (0 <= ell_a ell * (8 / 2 ^ 52)) by (apply Rmult_le_pos; lra). apply Rabs_le. lra.
Qed.
Theorem C87_distance_recovered_earth : forall deg lat1 lon1 az s lat2 lon2 az2 s' a b, 0 <= s <= 17200000 ->
  geodesic_direct lat1 lon1 az s None deg = (lat2, lon2, az2) -> well_apart (267 / 100) deg None lat1 lon1 lat2 lon2 ->
  geodesic_inverse lat1 lon1 lat2 lon2 None deg = (s', a, b) -> Rabs (s' - s) <= 4 / 10 ^ 8.
Proof.
  intros deg lat1 lon1 az s lat2 lon2 az2 s' a b S D W E. eapply Rle_trans; [apply (C87_distance_recovered _ deg None lat1 lon1 az s lat2 lon2 az2 s' a b wgs84_round earth_bound); try assumption; cbn [ell_a]; lra|].
  assert (Q : 2500 * third None ^ 7 <= 10 / 10 ^ 16). { apply Rle_trans with (2500 * (16793 / 10000000) ^ 7); [|simpl; lra]. apply Rmult_le_compat_l; [lra|]. apply pow_incr, wgs84_third. }
  apply Rle_trans with (6378137 * (10 / 10 ^ 16 + 22 / 2 ^ 52)); [cbn [ell_a]; apply Rmult_le_compat_l; lra|simpl; lra].
Qed.
(** The hypotheses are met: a third of a turn on the sphere of radius 1. *)
Example C87_example : round_enough (Some unit_sphere) /\ bound_ok (267 / 100) (Some unit_sphere) /\
  exists s az az2, 0 < s <= 27 / 10 * ell_a (Some unit_sphere) /\ geodesic_direct 45 10 az s (Some unit_sphere) true = (-45, 100, az2) /\
  well_apart (267 / 100) true (Some unit_sphere) 45 10 (-45) 100.
Proof.
  pose proof pi_314 as PL. pose proof pi_3145 as PU.
  assert (O : ell_ok (Some unit_sphere)) by (unfold ell_ok, valid_ell, unit_sphere; cbn [semimajor_axis semiminor_axis flattening thirdflattening eccentricity]; repeat split; lra).
  assert (FZ : flat (Some unit_sphere) = 0) by (unfold flat; cbn [ell_a ell_b unit_sphere semimajor_axis semiminor_axis]; field).
  destruct C71_example_earth as (P1 & P2 & A & G). split; [split; [exact O|cbn [ell_a ell_b unit_sphere semimajor_axis semiminor_axis]; lra]|]. split; [split; [lra|rewrite FZ; pose proof (sin_ge_0 (267 / 100) ltac:(lra) ltac:(lra)); lra]|].
  destruct (geodesic_inverse 45 10 (-45) 100 (Some unit_sphere) true) as [[d az1] az2] eqn:E.
  destruct (C68_direct_undoes_inverse 45 10 (-45) 100 (Some unit_sphere) true d az1 az2 O eq_refl P1 P2 E) as (lon & azi & D & (RG & k & EK) & _). cbn [half full] in *.
  destruct (C68_sphere 45 10 (-45) 100 (Some unit_sphere) true d az1 az2 O eq_refl P1 P2 E) as (Ed & _). cbv zeta in Ed.
  assert (K0 : k = 0%Z). { assert (-1 < IZR k < 1) by lra. assert (-1 < k < 1)%Z by (split; apply lt_IZR; simpl; lra). lia. } rewrite K0, Rmult_0_l, Rplus_0_r in EK. subst lon.
  exists d, az1, azi. split; [|split; [exact D|split; [exact P1|split; [exact P2|split; [left; lra|rewrite FZ; split; lra]]]]].
  rewrite Ed. cbn [ell_a unit_sphere semimajor_axis] in *. assert (N : unit_angle (dir true 45 10) (dir true (-45) 100) <> 0).
  { intros Z. apply L_nvector.angle_0 in Z; [|apply L_ecef.unit_normal_unit|apply L_ecef.unit_normal_unit]. unfold dir, unit_normal, as_rad in Z. injection Z as _ _ Z. replace (-45 * PI / 180) with (- (PI / 4)) in Z by field. replace (45 * PI / 180) with (PI / 4) in Z by field. rewrite sin_neg in Z. pose proof (sin_gt_0 (PI / 4) ltac:(lra) ltac:(lra)). lra. }
  pose proof (L_nvector.angle_range (dir true 45 10) (dir true (-45) 100) ltac:(apply L_ecef.unit_normal_unit) ltac:(apply L_ecef.unit_normal_unit)). lra.
Qed.
