(** Properties C75, C76: vreckon, vdist and track2 against the true geodesics of the
    ellipsoid. *)
From Coq Require Import Reals Lra Lia Psatz.
From Coquelicot Require Import Coquelicot.
From Verif Require Import PyMath M_ellipsoid M_vincenty Spec Spec_geodesic.
From Verif Require Import P_vincenty P_geodesic.
From Verif Require L_PyMath L_ell L_vincenty L_vincenty2 L_vincenty3 L_vincenty4 L_vin1 L_vin2 L_vin3 L_vin4 L_vin6 L_vin7 L_vincenty5 L_geodesic4 L_lox L_aer.
Open Scope R_scope.

(** ** Specification *)
Definition flat (ell : option Ellipsoid) : R := (ell_a ell - ell_b ell) / ell_a ell.

(** ** C75: vreckon follows the true geodesic *)
Lemma flat_range ell : round_enough ell -> 0 <= flat ell <= 1 / 100 /\ ell_b ell = ell_a ell * (1 - flat ell) /\ 0 < ell_a ell /\ 0 < ell_b ell <= ell_a ell.
Proof.
  intros [Ho Hf]. destruct (L_ell.ell_pos ell Ho) as [Pb Pa]. unfold flat. split; [split|split; [field; lra|lra]].
  - apply Rmult_le_pos; [lra|left; apply Rinv_0_lt_compat; lra].
  - apply Rmult_le_reg_r with (ell_a ell); [lra|]. replace ((ell_a ell - ell_b ell) / ell_a ell * ell_a ell) with (ell_a ell - ell_b ell) by (field; lra). lra.
Qed.
(** For every start (not closer than 1e-10 rad to a pole), azimuth and range, a
    position returned by vreckon is the point at that distance along the geodesic that
    leaves the start with that azimuth, up to 1.03e-12 radii (the loop tolerance) plus
    a term of fourth order in the flattening that grows linearly with the range. *)
Theorem C75_vreckon_accuracy : forall fuel deg ell lat1 lon1 rng az c t lat2 lon2, round_enough ell -> clear_of_poles deg lat1 ->
  leaves deg ell lat1 lon1 az c t -> vreckon fuel lat1 lon1 rng az ell deg = Some (Ok (Some (lat2, lon2))) ->
  vdist3 (surface_point (ell_a ell) (ell_b ell) (as_rad deg lat2) (as_rad deg lon2)) (c rng)
    <= ell_a ell * (103 / 100 / 10 ^ 12 + flat ell ^ 4 / 5 * (rng / ell_b ell + 1)).
Proof.
  intros fuel deg ell lat1 lon1 rng az c t lat2 lon2 RE CP (G & G0 & G1) E. change as_rad with rad_in in *. pose proof RE as [Ho _].
  destruct (flat_range ell RE) as (F & Eb & Pa & Pb). set (a := ell_a ell) in *. set (b := ell_b ell) in *.
  destruct (Rlt_dec rng 0) as [N|Hr]; [rewrite L_vincenty4.vreckon_neg in E by exact N; discriminate|apply Rnot_lt_le in Hr].
  unfold clear_of_poles in CP. change as_rad with rad_in in CP. pose proof (L_vincenty.nudge_id _ CP) as NI. apply Rabs_le_between in CP. pose proof L_vincenty.ten10 as T10. pose proof L_vincenty.pi_gt3 as P3.
  rewrite L_vincenty4.vreckon_ok in E by (try assumption; apply L_vincenty3.rad_in_bounds; lra). cbv zeta in E.
  destruct (Rlt_dec _ _) as [_|_] in E; [|discriminate]. unfold L_vincenty4.vbase, L_vincenty4.vk in E. rewrite NI, (L_ell.ell_f ell Ho) in E. fold a b in E. change ((a - b) / a) with (flat ell) in E. set (f := flat ell) in *.
  set (k := vreck_init a b f (rad_in deg lat1) (rad_in deg az)) in *. destruct (vreck_loop _ _ _ _) as [[sP s]|] eqn:L; [|discriminate].
  assert (M : a ^ 2 <= 2 * b ^ 2) by (rewrite Eb, Rpow_mult_distr; assert (1 / 2 <= (1 - f) ^ 2) by nra; pose proof (pow2_ge_0 a); nra).
  destruct (L_vincenty2.vreck_init_ok a b f (rad_in deg lat1) (rad_in deg az) (proj1 Pb) (proj2 Pb) M) as [KB KA]. fold k in KB, KA.
  destruct (L_vin7.loop_out k _ fuel _ sP s L KB) as (Es & Gap & Sp); [rewrite Rminus_diag_eq, Rabs_R0 by reflexivity; lra|].
  destruct (vreck_end _ _ _ _ _) as [la lo] eqn:VE. injection E as <- <-. rewrite !L_PyMath.rad_in_deg_out.
  assert (HC : 0 < cos (rad_in deg lat1)) by (apply cos_gt_0; lra).
  pose proof (L_vin7.reck_final a f (rad_in deg lat1) (rad_in deg lon1) (rad_in deg az) rng c t sP s Pa F HC) as Q. cbv zeta in Q. rewrite <- Eb in Q. fold k in Q. specialize (Q G G0 G1 Hr Es Gap Sp). rewrite VE in Q. exact Q.
Qed.
(** On the Earth: within a millimetre up to half the circumference. *)
Lemma wgs84_flat : 0 <= flat None <= 336 / 100000.
Proof.
  unfold flat. cbn [ell_a ell_b]. split.
  - apply Rmult_le_pos; [lra|]. left. apply Rinv_0_lt_compat. lra.
  - apply Rmult_le_reg_r with 6378137; [lra|]. unfold Rdiv at 1. rewrite Rmult_assoc, Rinv_l; lra.
Qed.
Theorem C75_vreckon_accuracy_earth : forall fuel deg lat1 lon1 rng az c t lat2 lon2, clear_of_poles deg lat1 -> rng <= 20010000 ->
  leaves deg None lat1 lon1 az c t -> vreckon fuel lat1 lon1 rng az None deg = Some (Ok (Some (lat2, lon2))) ->
  vdist3 (surface_point (ell_a None) (ell_b None) (as_rad deg lat2) (as_rad deg lon2)) (c rng) <= / 1000.
Proof.
  intros fuel deg lat1 lon1 rng az c t lat2 lon2 CP Hr L E. eapply Rle_trans; [exact (C75_vreckon_accuracy _ _ _ _ _ _ _ _ _ _ _ wgs84_round CP L E)|].
  assert (F4 : 0 <= flat None ^ 4 <= (336 / 100000) ^ 4) by (split; [apply pow_le, wgs84_flat|apply pow_incr, wgs84_flat]).
  assert (Q : rng / ell_b None + 1 <= 415 / 100).
  { cbn [ell_b]. assert (rng / (635675231424518 / 100000000) <= 3148 / 1000); [|lra]. apply Rmult_le_reg_r with (635675231424518 / 100000000); [lra|]. unfold Rdiv at 1. rewrite Rmult_assoc, Rinv_l by lra. lra. }
  apply Rle_trans with (ell_a None * (103 / 100 / 10 ^ 12 + (336 / 100000) ^ 4 / 5 * (415 / 100))).
  - apply Rmult_le_compat_l; [cbn [ell_a]; lra|]. apply Rplus_le_compat_l. apply Rle_trans with (flat None ^ 4 / 5 * (415 / 100)); [apply Rmult_le_compat_l; lra|]. apply Rmult_le_compat_r; lra.
  - cbn [ell_a]. simpl. lra.
Qed.
(** Such calls exist: with enough passes the loop always ends (C44), and the result is a
    position unless the range is within 1e-12 rad of a full turn. *)
Example C75_example : clear_of_poles true 30 /\ exists lat2 lon2 c t, leaves true None 30 20 45 c t /\ vreckon 71 30 20 1000000 45 None true = Some (Ok (Some (lat2, lon2))).
Proof.
  split.
  - unfold clear_of_poles, as_rad. pose proof L_vincenty.ten10. pose proof L_vincenty.pi_gt3. apply Rabs_le. lra.
  - destruct (C70_geodesic_exists true None 30 20 45 I) as (c & t & L).
    assert (B : - quarter true <= 30 <= quarter true) by (cbn [quarter]; lra).
    rewrite L_vincenty4.vreckon_ok by (try assumption; lra). cbv zeta. set (k := L_vincenty4.vk _ _ _). set (base := L_vincenty4.vbase _ _ _ _).
    assert (M : ell_a None ^ 2 <= 2 * ell_b None ^ 2) by (cbn [ell_a ell_b]; lra).
    destruct (L_vincenty2.vreck_init_ok (ell_a None) (ell_b None) (flattening (resolve_ellipsoid None)) (nudge_pole (rad_in true 30)) (rad_in true 45) ltac:(cbn [ell_b]; lra) ltac:(cbn [ell_a ell_b]; lra) M) as [KB KA].
    fold (L_vincenty4.vk None (rad_in true 30) (rad_in true 45)) in KB, KA. fold k in KB, KA.
    assert (B2 : 0 <= base <= 1).
    { unfold base, L_vincenty4.vbase. fold k. assert (0 < ell_b None * r_A k) by (apply Rmult_lt_0_compat; [cbn [ell_b]; lra|lra]). split; [apply Rmult_le_pos; [lra|left; now apply Rinv_0_lt_compat]|].
      apply Rmult_le_reg_r with (ell_b None * r_A k); [assumption|]. unfold Rdiv. rewrite Rmult_assoc, Rinv_l by lra. cbn [ell_b] in *. nra. }
    destruct (Rlt_dec _ _) as [_|X].
    + destruct (L_vincenty2.vreck_loop_total k base 71 base KB (L_vincenty2.first_gap k base KB) ltac:(lia)) as (sP & s & EL & _). rewrite EL.
      destruct (vreck_end _ _ _ _ _) as [la lo]. exists (deg_out true la), (deg_out true lo), c, t. split; [exact L|reflexivity].
    + exfalso. apply X. pose proof L_vincenty.pi_gt3. rewrite Rabs_left by lra. simpl. lra.
Qed.

(** ** C76: vdist measures the true geodesic, and vreckon and track2 follow what it measures *)
(** Distance and azimuth returned by vdist, for every two points (not closer than
    1e-10 rad to a pole) whose normals are at most 2.8 rad (160 degrees) apart: the
    geodesic that leaves the first point with that azimuth passes, after that
    distance, within a(2e-12 + 3 f^4/5) of the second point. *)
Theorem C76_vdist_accuracy : forall deg ell lat1 lon1 lat2 lon2 d az c t, round_enough ell -> clear_of_poles deg lat1 -> clear_of_poles deg lat2 ->
  unit_angle (dir deg lat1 lon1) (dir deg lat2 lon2) <= 28 / 10 ->
  vdist lat1 lon1 lat2 lon2 ell deg = Ok (d, az) -> leaves deg ell lat1 lon1 az c t ->
  vdist3 (surface_point (ell_a ell) (ell_b ell) (as_rad deg lat2) (as_rad deg lon2)) (c d) <= ell_a ell * (2 / 10 ^ 12 + 3 / 5 * flat ell ^ 4) /\ d <= 3 * ell_b ell.
Proof.
  intros deg ell lat1 lon1 lat2 lon2 d az c t RE CP1 CP2 AN E (G & G0 & G1). unfold dir in AN. change as_rad with rad_in in *. pose proof RE as [Ho _].
  destruct (flat_range ell RE) as (F & Eb & Pa & Pb). unfold clear_of_poles in CP1, CP2. change as_rad with rad_in in CP1, CP2.
  pose proof (L_vincenty.nudge_id _ CP1) as N1. pose proof (L_vincenty.nudge_id _ CP2) as N2. apply Rabs_le_between in CP1, CP2. pose proof L_vincenty.ten10 as T10. pose proof L_vincenty.pi_gt3 as P3.
  assert (B1 : - quarter deg <= lat1 <= quarter deg) by (apply L_vincenty3.rad_in_bounds; lra). assert (B2 : - quarter deg <= lat2 <= quarter deg) by (apply L_vincenty3.rad_in_bounds; lra).
  rewrite (L_vincenty3.vdist_ok _ _ _ _ _ _ B1 B2) in E. cbv zeta in E. apply L_lox.ok_pair_inj in E. destruct E as [Ed Ea].
  assert (HC1 : 0 < cos (rad_in deg lat1)) by (apply cos_gt_0; lra). assert (HC2 : 0 < cos (rad_in deg lat2)) by (apply cos_gt_0; lra).
  unfold L_vincenty3.vU in Ed, Ea. rewrite N1, N2, (L_ell.ell_f ell Ho) in Ed, Ea. set (a := ell_a ell) in *. set (b := ell_b ell) in *. change ((a - b) / a) with (flat ell) in Ed, Ea. set (f := flat ell) in *.
  set (p1 := rad_in deg lat1) in *. set (p2 := rad_in deg lat2) in *. set (l1 := rad_in deg lon1) in *. set (l2 := rad_in deg lon2) in *.
  pose proof (L_vin7.reduced_sep f p1 l1 p2 l2 F HC1 HC2) as SEP. pose proof (L_vincenty.lon_gap_range l1 l2) as LR.
  pose proof (L_vincenty.reduced_range f p1) as V1. pose proof (L_vincenty.reduced_range f p2) as V2.
  pose proof (L_vin3.sg_cs (reduced_lat f p1) (reduced_lat f p2) (lon_gap l1 l2)) as (_ & SR & _).
  assert (F4 : 0 <= f ^ 4) by (apply pow_le; lra). assert (T12 : 0 < 2 / 10 ^ 12) by (clear; simpl; lra).
  destruct (Req_dec (L_vin3.sg (reduced_lat f p1) (reduced_lat f p2) (lon_gap l1 l2)) 0) as [Z|Z].
  - destruct (L_vin7.sep_zero f p1 l1 p2 l2 F ltac:(lra) ltac:(lra) Z) as (EP & EL & PT). rewrite EL, <- EP, L_vincenty3.vdist_loop_coincident in Ed. cbn [snd] in Ed. rewrite L_vincenty3.vdist_length_0 in Ed.
    rewrite <- Ed, G0, <- PT, EP, L_vin7.vdist3_refl. split; [|lra]. apply Rmult_le_pos; [lra|]. apply Rplus_le_le_0_compat; lra.
  - destruct (L_vin4.vdist_settles f (reduced_lat f p1) (reduced_lat f p2) (lon_gap l1 l2) F V1 V2 LR ltac:(lra) ltac:(lra) (0, 0, 0)) as (l & T & T' & Gap & EQ).
    rewrite EQ in Ed, Ea. cbn [fst snd] in Ed, Ea. set (lam := L_vin4.vl f (reduced_lat f p1) (reduced_lat f p2) (lon_gap l1 l2) l) in *.
    destruct (L_vin7.signed_dir l1 l2 lam) as (e & He & Ce & Se & PT); [destruct T'; lra|]. rewrite L_vincenty.vdist_azimuth_eq, Ce, Se in Ea. rewrite <- Ea in G1. rewrite L_PyMath.rad_in_deg_out in G1.
    pose proof (L_vin6.vdist_joined a f p1 p2 l1 e (lon_gap l1 l2) l c t) as Q. cbv zeta in Q. rewrite <- Eb in Q. fold lam in Q. specialize (Q Pa F HC1 HC2 LR ltac:(lra) ltac:(lra) He T T' Gap G G0 G1). rewrite PT, Ed in Q. split.
    + eapply Rle_trans; [exact Q|]. apply Rmult_le_compat_l; [lra|]. apply Rplus_le_compat_l. pose proof (L_vin7.series_err f F). lra.
    + rewrite <- Ed, Eb. apply (L_vin7.len_up a f _ _ (lon_gap l1 l2) l); try assumption; lra.
Qed.
(** On the Earth: within 0.6 mm. *)
Theorem C76_vdist_accuracy_earth : forall deg lat1 lon1 lat2 lon2 d az c t, clear_of_poles deg lat1 -> clear_of_poles deg lat2 ->
  unit_angle (dir deg lat1 lon1) (dir deg lat2 lon2) <= 28 / 10 ->
  vdist lat1 lon1 lat2 lon2 None deg = Ok (d, az) -> leaves deg None lat1 lon1 az c t ->
  vdist3 (surface_point (ell_a None) (ell_b None) (as_rad deg lat2) (as_rad deg lon2)) (c d) <= 6 / 10000.
Proof.
  intros deg lat1 lon1 lat2 lon2 d az c t C1 C2 AN E L. destruct (C76_vdist_accuracy _ _ _ _ _ _ _ _ _ _ wgs84_round C1 C2 AN E L) as [Q _]. eapply Rle_trans; [exact Q|].
  assert (F4 : 0 <= flat None ^ 4 <= (336 / 100000) ^ 4) by (split; [apply pow_le, wgs84_flat|apply pow_incr, wgs84_flat]).
  apply Rle_trans with (ell_a None * (2 / 10 ^ 12 + 3 / 5 * (336 / 100000) ^ 4)); [apply Rmult_le_compat_l; [cbn [ell_a]; lra|lra]|]. cbn [ell_a]. clear. simpl. lra.
Qed.
(** vreckon undoes vdist: it returns a position, and this is the destination up to the
    sum of the two errors. *)
Theorem C76_vreckon_undoes_vdist : forall fuel deg ell lat1 lon1 lat2 lon2 d az, round_enough ell -> clear_of_poles deg lat1 -> clear_of_poles deg lat2 ->
  unit_angle (dir deg lat1 lon1) (dir deg lat2 lon2) <= 28 / 10 -> (71 <= fuel)%nat ->
  vdist lat1 lon1 lat2 lon2 ell deg = Ok (d, az) ->
  exists lat lon, vreckon fuel lat1 lon1 d az ell deg = Some (Ok (Some (lat, lon))) /\
  vdist3 (surface_point (ell_a ell) (ell_b ell) (as_rad deg lat) (as_rad deg lon)) (surface_point (ell_a ell) (ell_b ell) (as_rad deg lat2) (as_rad deg lon2))
    <= ell_a ell * (304 / 100 / 10 ^ 12 + 7 / 5 * flat ell ^ 4).
Proof.
  intros fuel deg ell lat1 lon1 lat2 lon2 d az RE C1 C2 AN Hf E. pose proof RE as [Ho _]. destruct (flat_range ell RE) as (F & Eb & Pa & Pb).
  destruct (C70_geodesic_exists deg ell lat1 lon1 az Ho) as (c & t & L). destruct (C76_vdist_accuracy _ _ _ _ _ _ _ _ _ _ RE C1 C2 AN E L) as [Q D3].
  assert (M : ell_a ell ^ 2 <= 2 * ell_b ell ^ 2) by (rewrite Eb, Rpow_mult_distr; assert (1 / 2 <= (1 - flat ell) ^ 2) by nra; pose proof (pow2_ge_0 (ell_a ell)); nra).
  pose proof (C43_distance_nonnegative _ _ _ _ _ _ _ _ (conj Ho M) E) as D0.
  assert (X : exists lat lon, vreckon fuel lat1 lon1 d az ell deg = Some (Ok (Some (lat, lon)))).
  { unfold clear_of_poles in C1. change as_rad with rad_in in C1. apply Rabs_le_between in C1. pose proof L_vincenty.ten10 as T10. pose proof L_vincenty.pi_gt3 as P3.
    assert (B1 : - quarter deg <= lat1 <= quarter deg) by (apply L_vincenty3.rad_in_bounds; lra).
    rewrite L_vincenty4.vreckon_ok by assumption. cbv zeta. set (k := L_vincenty4.vk _ _ _). set (base := L_vincenty4.vbase _ _ _ _).
    destruct (L_vincenty2.vreck_init_ok (ell_a ell) (ell_b ell) (flattening (resolve_ellipsoid ell)) (nudge_pole (rad_in deg lat1)) (rad_in deg az) (proj1 Pb) (proj2 Pb) M) as [KB KA].
    fold (L_vincenty4.vk ell (rad_in deg lat1) (rad_in deg az)) in KB, KA. fold k in KB, KA.
    assert (B2 : 0 <= base <= 3).
    { unfold base, L_vincenty4.vbase. fold k. assert (0 < ell_b ell * r_A k) by (apply Rmult_lt_0_compat; lra). split; [apply Rmult_le_pos; [lra|left; now apply Rinv_0_lt_compat]|].
      apply Rmult_le_reg_r with (ell_b ell * r_A k); [assumption|]. unfold Rdiv. rewrite Rmult_assoc, Rinv_l by lra. nra. }
    destruct (Rlt_dec _ _) as [_|X].
    + destruct (L_vincenty2.vreck_loop_total k base fuel base KB (L_vincenty2.first_gap k base KB) ltac:(lia)) as (sP & s & EL & _). rewrite EL.
      destruct (vreck_end _ _ _ _ _) as [la lo]. exists (deg_out deg la), (deg_out deg lo). reflexivity.
    + exfalso. apply X. rewrite Rabs_left by lra. assert (1 / 10 ^ 12 < 1) by (clear; simpl; lra). lra. }
  destruct X as (lat & lon & X). exists lat, lon. split; [exact X|]. pose proof (C75_vreckon_accuracy _ _ _ _ _ _ _ _ _ _ _ RE C1 L X) as W.
  eapply Rle_trans; [apply (L_geodesic4.vdist3_triangle _ (c d))|].
  assert (DB : d / ell_b ell <= 3). { apply Rmult_le_reg_r with (ell_b ell); [lra|]. unfold Rdiv. rewrite Rmult_assoc, Rinv_l by lra. lra. }
  rewrite (L_aer.vdist3_sym (c d)). eapply Rle_trans; [apply Rplus_le_compat; [exact W|exact Q]|]. rewrite <- Rmult_plus_distr_l. apply Rmult_le_compat_l; [lra|].
  assert (F4 : 0 <= flat ell ^ 4) by (apply pow_le; lra). assert (flat ell ^ 4 / 5 * (d / ell_b ell + 1) <= flat ell ^ 4 / 5 * 4) by (apply Rmult_le_compat_l; lra).
  assert (103 / 100 / 10 ^ 12 + 2 / 10 ^ 12 <= 304 / 100 / 10 ^ 12) by (clear; simpl; lra). lra.
Qed.
(** track2 returns [npts] points that lie, equally spaced by distance travelled, along
    one geodesic that leaves the first point and reaches the second. *)
Theorem C76_track2_on_geodesic : forall fuel deg ell lat1 lon1 lat2 lon2 npts, round_enough ell -> (71 <= fuel)%nat -> (3 <= npts)%nat ->
  clear_of_poles deg lat1 -> clear_of_poles deg lat2 -> unit_angle (dir deg lat1 lon1) (dir deg lat2 lon2) <= 28 / 10 ->
  exists d c t l, track2 fuel lat1 lon1 lat2 lon2 ell npts deg = Some (Ok (Some l)) /\ List.length l = npts /\
    unit_geodesic (ell_a ell) (ell_b ell) c t /\ c 0 = surface_point (ell_a ell) (ell_b ell) (as_rad deg lat1) (as_rad deg lon1) /\
    vdist3 (surface_point (ell_a ell) (ell_b ell) (as_rad deg lat2) (as_rad deg lon2)) (c d) <= ell_a ell * (2 / 10 ^ 12 + 3 / 5 * flat ell ^ 4) /\
    forall i lat lon, List.nth_error l i = Some (lat, lon) ->
      vdist3 (surface_point (ell_a ell) (ell_b ell) (as_rad deg lat) (as_rad deg lon)) (c (INR i * (d / (INR npts - 1))))
        <= ell_a ell * (103 / 100 / 10 ^ 12 + 4 / 5 * flat ell ^ 4).
Proof.
  intros fuel deg ell lat1 lon1 lat2 lon2 npts RE Hf Hn C1 C2 AN. pose proof RE as [Ho _]. destruct (flat_range ell RE) as (F & Eb & Pa & Pb).
  assert (M : ell_a ell ^ 2 <= 2 * ell_b ell ^ 2) by (rewrite Eb, Rpow_mult_distr; assert (1 / 2 <= (1 - flat ell) ^ 2) by nra; pose proof (pow2_ge_0 (ell_a ell)); nra).
  rewrite (track2_open _ _ _ _ _ _ _ _ Hn). pose proof L_vin3.pi_31 as P31. destruct (Rlt_dec _ _) as [X|_].
  { exfalso. apply Rabs_def2 in X. assert (1 / 10 ^ 12 < 1 / 10) by (clear; simpl; lra). lra. }
  set (p1 := rad_in deg lat1). set (p2 := rad_in deg lat2). set (l1 := rad_in deg lon1). set (l2 := rad_in deg lon2).
  assert (D1 : clear_of_poles false p1) by exact C1. assert (D2 : clear_of_poles false p2) by exact C2. assert (AN' : unit_angle (dir false p1 l1) (dir false p2 l2) <= 28 / 10) by exact AN.
  unfold clear_of_poles in D1, D2. change (as_rad false p1) with p1 in D1. change (as_rad false p2) with p2 in D2. pose proof L_vincenty.ten10 as T10. pose proof (L_vincenty.nudge_id _ D1) as NI. apply Rabs_le_between in D1, D2.
  destruct (C43_latitude_guard p1 l1 p2 l2 ell false) as [V _]. destruct V as (d & az & E); [unfold lat_ok; cbn [quarter]; lra|]. rewrite E.
  pose proof (C43_distance_nonnegative _ _ _ _ _ _ _ _ (conj Ho M) E) as D0.
  destruct (C70_geodesic_exists false ell p1 l1 az Ho) as (c & t & L). destruct (C76_vdist_accuracy false ell p1 l1 p2 l2 d az c t RE C1 C2 AN' E L) as [Q D3]. destruct L as (G & G0 & G1).
  exists d, c, t. set (rs := map (fun i => INR i * (d / (INR npts - 1))) (seq 1 (npts - 1))).
  assert (LS : linspace 0 d npts = 0 :: rs) by (apply L_vincenty5.linspace_cons; lia).
  assert (RR : Forall (fun r => 0 <= r <= d) (0 :: rs)) by (rewrite <- LS; apply List.Forall_forall; intros r Hr; apply (L_vincenty5.linspace_in d npts r D0 ltac:(lia) Hr)).
  assert (R0 : Forall (fun r => 0 <= r) rs) by (inversion RR as [|x y H1 H2]; subst; eapply List.Forall_impl; [|exact H2]; cbn; intros; lra).
  destruct (L_vincenty5.ranges_total fuel p1 l1 rs az ell Ho M Hf R0 ltac:(lra)) as (l & ER & Len & _). rewrite LS, ER.
  eexists. split; [reflexivity|]. split; [rewrite map_length; cbn [List.length]; rewrite Len; unfold rs; rewrite map_length, seq_length; lia|].
  split; [exact G|]. split; [exact G0|]. split; [exact Q|]. intros i lat lon Hi.
  rewrite L_vincenty5.ranges_ok in ER by (try exact R0; lra). cbv zeta in ER. destruct (vreck_loop_array _ _ _ _) as [ll|] eqn:EL; [|discriminate].
  assert (EM : map (fun '(sP, s) => vreck_end (flattening (resolve_ellipsoid ell)) l1 (L_vincenty4.vk ell p1 az) sP s) ll = (nudge_pole p1, py_mod l1 tau) :: l) by congruence. rewrite <- EM in Hi. rewrite map_map in Hi.
  apply L_vin7.nth_map_inv in Hi. destruct Hi as ([sP s] & Hi & Ep).
  destruct (L_vincenty2.vreck_init_ok (ell_a ell) (ell_b ell) (flat ell) p1 az (proj1 Pb) (proj2 Pb) M) as [KB KA].
  assert (EK : L_vincenty4.vk ell p1 az = vreck_init (ell_a ell) (ell_b ell) (flat ell) p1 az) by (unfold L_vincenty4.vk; rewrite NI, (L_ell.ell_f ell Ho); reflexivity).
  pose proof (L_vin7.loop_array_out (L_vincenty4.vk ell p1 az) ltac:(rewrite EK; exact KB) fuel _ _ ll EL) as W.
  assert (W0 : Forall2 (fun s b => Rabs (s - b) <= 2 / 3) (map (L_vincenty4.vbase ell p1 az) (0 :: rs)) (map (L_vincenty4.vbase ell p1 az) (0 :: rs))).
  { generalize (map (L_vincenty4.vbase ell p1 az) (0 :: rs)). intros bs. induction bs as [|x bs IH]; constructor; [rewrite Rminus_diag_eq, Rabs_R0 by reflexivity; lra|exact IH]. }
  specialize (W W0). destruct (L_vin7.Forall2_nth _ _ _ _ _ W Hi) as (bs & Hb & (Es & Gap & Sp)). rewrite <- LS in Hb.
  unfold linspace in Hb. rewrite map_map in Hb. apply L_vin7.nth_map_inv in Hb. destruct Hb as (j & Hj & Eb'). 
  assert (Ej : j = i /\ (i < npts)%nat). { assert (i < npts)%nat by (assert (List.nth_error (seq 0 npts) i <> None) as Hj' by congruence; apply List.nth_error_Some in Hj'; now rewrite seq_length in Hj'). split; [|assumption]. pose proof (List.nth_error_nth _ _ 0%nat Hj) as Z. rewrite seq_nth in Z by assumption. lia. }
  destruct Ej as [-> Hin]. replace (0 + INR i * ((d - 0) / (INR npts - 1))) with (INR i * (d / (INR npts - 1))) in Eb' by (unfold Rdiv; ring). set (r := INR i * (d / (INR npts - 1))) in *.
  assert (Rr : 0 <= r <= d). { apply (L_vincenty5.linspace_in d npts r D0 ltac:(lia)). unfold linspace. apply in_map_iff. exists i. split; [unfold r, Rdiv; ring|apply in_seq; lia]. }
  assert (Eb2 : bs = r / (ell_b ell * r_A (L_vincenty4.vk ell p1 az))) by (rewrite <- Eb'; reflexivity). rewrite Eb2 in Es, Sp. rewrite EK in *. rewrite (L_ell.ell_f ell Ho) in Ep. fold (flat ell) in Ep. change ((ell_a ell - ell_b ell) / ell_a ell) with (flat ell) in Ep.
  assert (HC : 0 < cos p1) by (apply cos_gt_0; lra).
  pose proof (L_vin7.reck_final (ell_a ell) (flat ell) p1 l1 az r c t sP s Pa F HC) as Z. cbv zeta in Z. rewrite <- Eb in Z. specialize (Z G G0 G1 (proj1 Rr) Es Gap Sp).
  destruct (vreck_end (flat ell) l1 _ sP s) as [la lo]. cbn [fst snd] in Z. apply pair_equal_spec in Ep. destruct Ep as [Ela Elo]. rewrite <- Ela, <- Elo. change as_rad with rad_in. rewrite !L_PyMath.rad_in_deg_out.
  eapply Rle_trans; [exact Z|]. apply Rmult_le_compat_l; [lra|]. apply Rplus_le_compat_l.
  assert (DB : r / ell_b ell <= 3). { apply Rmult_le_reg_r with (ell_b ell); [lra|]. unfold Rdiv. rewrite Rmult_assoc, Rinv_l by lra. lra. }
  assert (F4 : 0 <= flat ell ^ 4) by (apply pow_le; lra). assert (flat ell ^ 4 / 5 * (r / ell_b ell + 1) <= flat ell ^ 4 / 5 * 4) by (apply Rmult_le_compat_l; lra). lra.
Qed.
(** Two points to which all of this applies. *)
Example C76_example : clear_of_poles true 40 /\ clear_of_poles true (-10) /\ unit_angle (dir true 40 5) (dir true (-10) 65) <= 28 / 10 /\
  exists d az, vdist 40 5 (-10) 65 None true = Ok (d, az).
Proof.
  pose proof L_vincenty.ten10. pose proof L_vincenty.pi_gt3. split; [unfold clear_of_poles, as_rad; apply Rabs_le; lra|]. split; [unfold clear_of_poles, as_rad; apply Rabs_le; lra|]. split.
  - unfold unit_angle, dir, unit_normal, as_rad. cbn [vdot]. apply L_vin7.acos_le_28.
    replace (_ + _ + _) with (cos (40 * PI / 180) * cos (-10 * PI / 180) * cos (65 * PI / 180 - 5 * PI / 180) + sin (40 * PI / 180) * sin (-10 * PI / 180)) by (rewrite cos_minus; ring).
    assert (0 < cos (40 * PI / 180)) by (apply cos_gt_0; lra). assert (0 < cos (-10 * PI / 180)) by (apply cos_gt_0; lra). assert (0 < cos (65 * PI / 180 - 5 * PI / 180)) by (apply cos_gt_0; lra).
    assert (0 < cos (40 * PI / 180) * cos (-10 * PI / 180) * cos (65 * PI / 180 - 5 * PI / 180)) by (repeat apply Rmult_lt_0_compat; assumption).
    replace (-10 * PI / 180) with (- (10 * PI / 180)) by field. rewrite sin_neg. 
    assert (0 <= sin (10 * PI / 180) <= 1 / 2) as A by (split; [apply sin_ge_0; lra|rewrite <- sin_PI6; apply sin_incr_1; lra]). assert (0 <= sin (40 * PI / 180)) by (apply sin_ge_0; lra). pose proof (SIN_bound (40 * PI / 180)).
    replace (-10 * PI / 180) with (- (10 * PI / 180)) in * by field. nra.
  - destruct (C43_latitude_guard 40 5 (-10) 65 None true) as [V _]. apply V. unfold lat_ok. cbn [quarter]. lra.
Qed.
