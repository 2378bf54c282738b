(** Property C71: geodesic_inverse away from the antipode, with no condition on its
    iteration. *)
From Coq Require Import Reals Lra Lia Psatz.
From Coquelicot Require Import Coquelicot.
From Verif Require Import PyMath M_ellipsoid M_karney Spec Spec_geodesic.
From Verif Require Import P_karney P_geodesic P_vincenty P_inverse P_vinacc.
From Verif Require L_PyMath L_ell L_karney L_karney2 L_karney3 L_karney5 L_karney6 L_series2 L_vincenty L_vin3 L_vin7 L_geodesic10 L_geodesic11 L_newton5 L_ecefacc2.
Open Scope R_scope.

(** ** Specification *)
(** The angle between the meridians of two points, in radians: 0 to pi. *)
Definition meridian_gap (deg : bool) (lon1 lon2 : R) : R := acos (cos (as_rad deg lon2 - as_rad deg lon1)).

Lemma gap_norm deg lon1 lon2 : radians (Rabs (AngNormalize (to_deg deg lon2 - to_deg deg lon1))) = meridian_gap deg lon1 lon2.
Proof.
  unfold meridian_gap. set (d := to_deg deg lon2 - to_deg deg lon1). pose proof (L_karney.AngNormalize_range d) as B. destruct (L_karney.AngNormalize_congr d) as [k E].
  assert (C : cos (radians (Rabs (AngNormalize d))) = cos (as_rad deg lon2 - as_rad deg lon1)).
  { replace (cos (radians (Rabs (AngNormalize d)))) with (cos (radians (AngNormalize d))).
    - rewrite E. replace (radians (d + IZR k * 360)) with (as_rad deg lon2 - as_rad deg lon1 + IZR k * (2 * PI)) by (unfold d; rewrite <- !to_rad; unfold radians; field). apply L_PyMath.cos_period_Z.
    - unfold Rabs. destruct (Rcase_abs (AngNormalize d)); [|reflexivity]. replace (radians (- AngNormalize d)) with (- radians (AngNormalize d)) by (unfold radians; field). now rewrite cos_neg. }
  rewrite <- C. symmetry. apply acos_cos. assert (A : 0 <= Rabs (AngNormalize d) <= 180) by (unfold Rabs; destruct (Rcase_abs (AngNormalize d)); lra).
  pose proof PI_RGT_0. unfold radians. split; [apply Rmult_le_pos; [apply Rmult_le_pos; lra|lra]|]. assert (Rabs (AngNormalize d) * PI <= 180 * PI) by (apply Rmult_le_compat_r; lra). lra.
Qed.
Lemma sin_over x T : 0 < x <= T -> T <= PI -> sin T * x <= sin x * T.
Proof.
  intros Hx HT. destruct (Req_dec x T) as [-> |N]; [lra|]. destruct (MVT_cor2 (fun t => sin t / t) (fun t => (t * cos t - sin t) / t ^ 2) x T ltac:(lra)) as (c & E & C).
  { intros c Hc. apply is_derive_Reals. auto_derive; [lra|]. field. lra. }
  assert (D : (c * cos c - sin c) / c ^ 2 <= 0).
  { assert (S : 0 <= sin c) by (apply sin_ge_0; lra). assert (K : c * cos c - sin c <= 0). { destruct (Rle_dec c (PI / 2)) as [L|L]; [pose proof (L_newton5.x_cos_le_sin c ltac:(lra)); lra|]. pose proof (cos_le_0 c ltac:(lra) ltac:(lra)). nra. }
    assert (0 < / c ^ 2) by (apply Rinv_0_lt_compat, pow_lt; lra). unfold Rdiv. nra. }
  assert (Q : sin T / T <= sin x / x) by nra. apply Rmult_le_reg_r with (/ (x * T)); [apply Rinv_0_lt_compat; nra|].
  replace (sin T * x * / (x * T)) with (sin T / T) by (field; lra). replace (sin x * T * / (x * T)) with (sin x / x) by (field; lra). exact Q.
Qed.
Lemma scale_ok f x T : 0 <= f -> 0 <= x <= T -> 0 < T <= PI -> 50 * f * T <= sin T -> f * x <= sin x / 50.
Proof.
  intros F Hx HT H. destruct (Req_dec x 0) as [-> |N]; [rewrite sin_0; lra|]. pose proof (sin_over x T ltac:(lra) ltac:(lra)) as Q.
  apply Rmult_le_reg_r with (50 * T); [lra|]. replace (sin x / 50 * (50 * T)) with (sin x * T) by field. apply Rle_trans with (2 := Q). replace (f * x * (50 * T)) with (50 * f * T * x) by ring. apply Rmult_le_compat_r; lra.
Qed.
Lemma reduced_neg f x : M_vincenty.reduced_lat f (- x) = - M_vincenty.reduced_lat f x.
Proof. unfold M_vincenty.reduced_lat. rewrite tan_neg, <- atan_opp. f_equal. ring. Qed.
Lemma sg_same u1 u2 l v1 v2 m : sin u1 * sin u2 = sin v1 * sin v2 -> cos u1 * cos u2 = cos v1 * cos v2 -> cos l = cos m -> L_vin3.sg u1 u2 l = L_vin3.sg v1 v2 m.
Proof.
  intros A B C. destruct (L_vin3.sg_cs u1 u2 l) as (C1 & R1 & _). destruct (L_vin3.sg_cs v1 v2 m) as (C2 & R2 & _).
  rewrite <- (acos_cos _ R1), <- (acos_cos _ R2). f_equal. rewrite C1, C2, A, B, C. reflexivity.
Qed.
(** The search for the azimuth: for every two points off the poles that are not both on
    the equator and not on the same meridian, it stops by itself, well before its limit
    of 31 rounds, with a residual below 8 units of 2^-52 rad; provided that the angle
    between the normals and the angle between the meridians leave enough room before
    half a turn. *)
Theorem C71_search_stops : forall T deg ell lat1 lon1 lat2 lon2, round_enough ell -> off_pole deg lat1 -> off_pole deg lat2 -> (lat1 <> 0 \/ lat2 <> 0) ->
  sin (as_rad deg lon2 - as_rad deg lon1) <> 0 -> T <= PI -> 50 * flat ell * T <= sin T ->
  unit_angle (dir deg lat1 lon1) (dir deg lat2 lon2) + 4 * flat ell <= T -> meridian_gap deg lon1 lon2 <= T ->
  stopped_within deg ell lat1 lon1 lat2 lon2 (8 / 2 ^ 52).
Proof.
  intros T deg ell lat1 lon1 lat2 lon2 H P1 P2 NZ SN TP TS AN GP. destruct (round_geodesic ell H) as (O & Ea & Eb & Hf & En & Ef). change ((ell_a ell - ell_b ell) / ell_a ell) with (flat ell) in Ef. pose proof Ef as Ef'. destruct (flat_range ell H) as (F & _).
  destruct (open_lat _ _ P1) as [Q1 T1]. destruct (open_lat _ _ P2) as [Q2 T2]. unfold stopped_within. set (L := Rabs (AngNormalize _)). pose proof (gap_norm deg lon1 lon2) as GN. fold L in GN.
  set (x1 := to_deg deg lat1) in *. set (x2 := to_deg deg lat2) in *.
  assert (NZ' : x1 <> 0 \/ x2 <> 0) by (destruct NZ as [N|N]; [left|right]; intros X; apply N; now apply to_deg_0 in X).
  assert (Cg : cos (radians L) = cos (as_rad deg lon2 - as_rad deg lon1)) by (rewrite GN; unfold meridian_gap; apply cos_acos, COS_bound).
  assert (L0 : 0 < radians L < PI).
  { pose proof (acos_bound (cos (as_rad deg lon2 - as_rad deg lon1))) as B. fold (meridian_gap deg lon1 lon2) in B. rewrite <- GN in B.
    assert (S0 : sin (radians L) <> 0). { intros Z. apply SN. pose proof (L_PyMath.sc1 (radians L)) as X. pose proof (L_PyMath.sc1 (as_rad deg lon2 - as_rad deg lon1)) as Y. rewrite Cg, Z in X. apply Rsqr_0_uniq. unfold Rsqr. lra. }
    split; [destruct (Req_dec (radians L) 0) as [Z|]; [exfalso; apply S0; rewrite Z; apply sin_0|lra]|destruct (Req_dec (radians L) PI) as [Z|]; [exfalso; apply S0; rewrite Z; apply sin_PI|lra]]. }
  assert (T0 : 0 < T) by (rewrite <- GN in GP; lra).
  assert (SG : forall A B, (A = x1 /\ B = x2 \/ A = x2 /\ B = x1) -> forall e, (e = 1 \/ e = -1) -> let sig := L_vin3.sg (M_vincenty.reduced_lat (gd_f (get_geodesic ell)) (radians (A * e))) (M_vincenty.reduced_lat (gd_f (get_geodesic ell)) (radians (B * e))) (radians L) in gd_f (get_geodesic ell) * sig <= sin sig / 50).
  { intros A B AB e He. cbv zeta. rewrite Ef. set (f := flat ell) in *.
    pose proof (L_vin7.reduced_sep f (as_rad deg lat1) (as_rad deg lon1) (as_rad deg lat2) (as_rad deg lon2) F) as SEP. change (unit_normal (as_rad deg lat1) (as_rad deg lon1)) with (dir deg lat1 lon1) in SEP. change (unit_normal (as_rad deg lat2) (as_rad deg lon2)) with (dir deg lat2 lon2) in SEP.
    pose proof L_karney2.tiny_pos as TPz. rewrite <- (to_rad deg lat1), <- (to_rad deg lat2) in SEP. fold x1 x2 in SEP. specialize (SEP ltac:(lra) ltac:(lra)).
    assert (SE : L_vin3.sg (M_vincenty.reduced_lat f (radians (A * e))) (M_vincenty.reduced_lat f (radians (B * e))) (radians L) = L_vin3.sg (M_vincenty.reduced_lat f (radians x1)) (M_vincenty.reduced_lat f (radians x2)) (M_vincenty.lon_gap (as_rad deg lon1) (as_rad deg lon2))).
    { assert (RN : forall y, radians (y * e) = radians y \/ radians (y * e) = - radians y) by (intros y; destruct He as [-> | ->]; [left; f_equal; ring|right; unfold radians; field]).
      apply sg_same; [| |rewrite Cg, L_vincenty.cos_gap; reflexivity].
      - destruct He as [-> | ->]; [rewrite !Rmult_1_r|replace (radians (A * -1)) with (- radians A) by (unfold radians; field); replace (radians (B * -1)) with (- radians B) by (unfold radians; field); rewrite !reduced_neg, !sin_neg]; destruct AB as [[-> ->]|[-> ->]]; ring.
      - destruct He as [-> | ->]; [rewrite !Rmult_1_r|replace (radians (A * -1)) with (- radians A) by (unfold radians; field); replace (radians (B * -1)) with (- radians B) by (unfold radians; field); rewrite !reduced_neg, !cos_neg]; destruct AB as [[-> ->]|[-> ->]]; ring. }
    rewrite SE. set (w := L_vin3.sg _ _ _) in *. destruct (L_vin3.sg_cs (M_vincenty.reduced_lat f (radians x1)) (M_vincenty.reduced_lat f (radians x2)) (M_vincenty.lon_gap (as_rad deg lon1) (as_rad deg lon2))) as (_ & R & _). fold w in R.
    apply (scale_ok f w T); lra. }
  assert (LC : gd_f (get_geodesic ell) * radians L <= sin (radians L) / 50) by (rewrite Ef; apply (scale_ok _ _ T); lra).
  replace (8 / 2 ^ 52) with (8 * k_tol0) by (unfold k_tol0; simpl; field).
  assert (AL : forall u w, Rabs (u * L_karney6.lneg w) = Rabs u).
  { intros u w. rewrite Rabs_mult. replace (Rabs (L_karney6.lneg w)) with 1; [ring|]. destruct (L_karney6.lneg_cases w) as [-> | ->]; [now rewrite Rabs_R1|]. replace (-1) with (-(1)) by lra. now rewrite Rabs_Ropp, Rabs_R1. }
  assert (AT : forall u, k_tiny <= cos (radians u) -> k_tiny <= cos (radians (u * L_karney6.lneg u))).
  { intros u K. destruct (L_karney6.lneg_cases u) as [-> | ->]; [now rewrite Rmult_1_r|]. replace (radians (u * -1)) with (- radians u) by (unfold radians; field). now rewrite cos_neg. }
  assert (A1 : Rabs x1 < 90) by (apply Rabs_def1; lra). assert (A2 : Rabs x2 < 90) by (apply Rabs_def1; lra).
  pose proof (Rabs_pos x1). pose proof (Rabs_pos x2).
  apply L_newton5.canon_settles; [exact O|exact Hf| | | |exact L0| |exact LC]; unfold L_geodesic11.inv_A, L_geodesic11.inv_B, L_geodesic11.far_lat, L_geodesic11.near_lat.
  - rewrite L_karney6.lneg_abs. destruct (Rlt_dec (Rabs x1) (Rabs x2)); [lra|]. assert (0 < Rabs x1); [|lra]. destruct NZ' as [N|N]; apply Rabs_pos_lt in N; lra.
  - rewrite AL, L_karney6.lneg_abs. destruct (Rlt_dec (Rabs x1) (Rabs x2)); lra.
  - apply AT. destruct (Rlt_dec (Rabs x1) (Rabs x2)); assumption.
  - apply SG; [destruct (Rlt_dec (Rabs x1) (Rabs x2)); [right|left]; split; reflexivity|]. match goal with |- context [L_karney6.lneg ?z] => destruct (L_karney6.lneg_cases z) as [-> | ->] end; [now left|now right].
Qed.
(** Hence the answer is that of a geodesic that joins the two points, up to
    300 n^7 + 8 * 2^-52; on the same meridian too. *)
Theorem C71_inverse_accuracy_away : forall T deg ell lat1 lon1 lat2 lon2 s az1 az2, round_enough ell -> off_pole deg lat1 -> off_pole deg lat2 -> (lat1 <> 0 \/ lat2 <> 0) ->
  T <= PI -> 50 * flat ell * T <= sin T ->
  unit_angle (dir deg lat1 lon1) (dir deg lat2 lon2) + 4 * flat ell <= T -> meridian_gap deg lon1 lon2 <= T ->
  geodesic_inverse lat1 lon1 lat2 lon2 ell deg = (s, az1, az2) ->
  joins deg ell lat1 lon1 lat2 lon2 s az1 az2 (300 * third ell ^ 7 + 8 / 2 ^ 52).
Proof.
  intros T deg ell lat1 lon1 lat2 lon2 s az1 az2 H P1 P2 NZ TP TS AN GP E. destruct (Req_dec (sin (as_rad deg lon2 - as_rad deg lon1)) 0) as [Z|Z].
  - intros c t L. destruct (C72_inverse_same_meridian deg ell lat1 lon1 lat2 lon2 s az1 az2 H P1 P2 NZ Z E c t L) as [A B]. assert (0 < 8 / 2 ^ 52) by (simpl; lra). destruct (flat_range ell H) as (_ & _ & Pa & _).
    split; [apply Rle_trans with (1 := A); apply Rmult_le_compat_l; lra|lra].
  - apply (C71_inverse_accuracy_partial deg ell lat1 lon1 lat2 lon2 s az1 az2 (8 / 2 ^ 52)); try assumption. now apply (C71_search_stops T).
Qed.
(** On the Earth: points whose normals and whose meridians are at most 2.65 rad (151
    degrees) apart are joined within 12 nanometres. *)
Lemma pi_314 : 314 / 100 < PI.
Proof.
  apply Rnot_le_lt; intros X. pose proof PI2_3_2 as P. assert (C : 0 < cos (157 / 100)).
  { replace (157 / 100) with (2 * (785 / 1000)) by lra. rewrite cos_2a_sin. destruct (L_series2.sin_taylor (785 / 1000)) as (th & Th & E). apply Rabs_le_between in Th.
    assert (S : 0 <= sin (785 / 1000) <= 7070 / 10000) by (rewrite E; lra). nra. }
  pose proof (cos_le_0 (157 / 100) ltac:(lra) ltac:(lra)). lra.
Qed.
Theorem C71_inverse_accuracy_earth : forall deg lat1 lon1 lat2 lon2 s az1 az2, off_pole deg lat1 -> off_pole deg lat2 -> (lat1 <> 0 \/ lat2 <> 0) ->
  unit_angle (dir deg lat1 lon1) (dir deg lat2 lon2) <= 265 / 100 -> meridian_gap deg lon1 lon2 <= 265 / 100 ->
  geodesic_inverse lat1 lon1 lat2 lon2 None deg = (s, az1, az2) ->
  joins deg None lat1 lon1 lat2 lon2 s az1 az2 (19 / 10 ^ 16).
Proof.
  intros deg lat1 lon1 lat2 lon2 s az1 az2 P1 P2 NZ AN GP E c t L. pose proof wgs84_flat as F. pose proof pi_314 as PP.
  destruct (C71_inverse_accuracy_away (267 / 100) deg None lat1 lon1 lat2 lon2 s az1 az2 wgs84_round P1 P2 NZ ltac:(lra)) with (c := c) (t := t) as [A B]; try assumption; try lra.
  - apply Rle_trans with (50 * (336 / 100000) * (267 / 100)); [apply Rmult_le_compat_r; lra|]. rewrite <- sin_PI_x. assert (Q : sin (47 / 100) <= sin (PI - 267 / 100)) by (pose proof PI_4; apply sin_incr_1; lra).
    destruct (L_series2.sin_taylor (47 / 100)) as (th & Th & Es). apply Rabs_le_between in Th. rewrite Es in Q. lra.
  - assert (Q : 300 * third None ^ 7 <= / 10 ^ 16).
    { apply Rle_trans with (300 * (16793 / 10000000) ^ 7); [|simpl; lra]. apply Rmult_le_compat_l; [lra|]. apply pow_incr, wgs84_third. }
    assert (Q2 : 300 * third None ^ 7 + 8 / 2 ^ 52 <= 19 / 10 ^ 16) by (apply Rle_trans with (/ 10 ^ 16 + 8 / 2 ^ 52); [lra|simpl; lra]).
    split; [apply Rle_trans with (1 := A); apply Rmult_le_compat_l; [cbn [ell_a]; lra|exact Q2]|lra].
Qed.
(** Any ellipsoid with flattening up to 1/100: normals at most 1.85 rad (105 degrees),
    meridians at most 1.89 rad (108 degrees) apart. *)
Theorem C71_inverse_accuracy_any_ellipsoid : forall deg ell lat1 lon1 lat2 lon2 s az1 az2, round_enough ell -> off_pole deg lat1 -> off_pole deg lat2 -> (lat1 <> 0 \/ lat2 <> 0) ->
  unit_angle (dir deg lat1 lon1) (dir deg lat2 lon2) <= 185 / 100 -> meridian_gap deg lon1 lon2 <= 189 / 100 ->
  geodesic_inverse lat1 lon1 lat2 lon2 ell deg = (s, az1, az2) ->
  joins deg ell lat1 lon1 lat2 lon2 s az1 az2 (300 * third ell ^ 7 + 8 / 2 ^ 52).
Proof.
  intros deg ell lat1 lon1 lat2 lon2 s az1 az2 H P1 P2 NZ AN GP E. destruct (flat_range ell H) as (F & _). pose proof pi_314 as PP.
  apply (C71_inverse_accuracy_away (189 / 100)); try assumption; try lra.
  apply Rle_trans with (50 * (1 / 100) * (189 / 100)); [apply Rmult_le_compat_r; lra|]. rewrite <- sin_PI_x. assert (Q : sin (125 / 100) <= sin (PI - 189 / 100)) by (pose proof L_ecefacc2.pi_half_up; pose proof PI2_3_2; apply sin_incr_1; lra).
  destruct (L_series2.sin_taylor (125 / 100)) as (th & Th & Es). apply Rabs_le_between in Th. rewrite Es in Q. lra.
Qed.
(** The hypotheses are met by points 120 degrees apart, in different hemispheres. *)
Example C71_example_earth : off_pole true 45 /\ off_pole true (-45) /\ unit_angle (dir true 45 10) (dir true (-45) 100) <= 265 / 100 /\ meridian_gap true 10 100 <= 265 / 100.
Proof.
  destruct off_pole_45 as [P1 _]. pose proof PI_RGT_0 as PP. pose proof L_ecefacc2.pi_half_up as PU. split; [exact P1|]. split; [|split].
  - destruct P1 as [_ B]. split; [unfold P_vincenty.lat_ok; cbn [quarter]; lra|]. unfold as_rad in *. replace (-45 * PI / 180) with (- (45 * PI / 180)) by field. rewrite cos_neg. exact B.
  - unfold unit_angle, dir, as_rad. replace (45 * PI / 180) with (PI / 4) by field. replace (-45 * PI / 180) with (- (PI / 4)) by field. replace (100 * PI / 180) with (PI / 2 + 10 * PI / 180) by field.
    set (u := 10 * PI / 180). unfold unit_normal. cbn [vdot]. rewrite sin_neg, cos_neg, sin_plus, cos_plus, sin_PI2, cos_PI2, sin_PI4, cos_PI4. set (q := 1 / sqrt 2). assert (Q : q * q = / 2). { unfold q. transitivity (/ (sqrt 2 * sqrt 2)); [field; apply Rgt_not_eq, sqrt_lt_R0; lra|rewrite sqrt_sqrt; lra]. }
    match goal with |- acos ?z <= _ => replace z with (- (1 / 2)) by (ring_simplify; lra) end.
    replace (- (1 / 2)) with (cos (2 * (PI / 3))) by (rewrite cos_2PI3; lra). rewrite acos_cos by lra. lra.
  - unfold meridian_gap, as_rad. replace (100 * PI / 180 - 10 * PI / 180) with (PI / 2) by field. rewrite acos_cos by lra. lra.
Qed.
