(** Property C90: no other way of travelling that the package measures is shorter than
    the distance geodesic_inverse returns. *)
From Coq Require Import Reals Lra Lia Psatz.
From Coquelicot Require Import Coquelicot.
From Verif Require Import PyMath M_ellipsoid M_karney M_rcurve M_lox Spec Spec_geodesic Spec_aux.
From Verif Require Import P_karney P_geodesic P_vincenty P_inverse P_vinacc P_converge P_distance P_shortest P_azimuth P_auxlat.
From Verif Require P_lox L_aux1 L_aux7 L_aux9 L_aux10 L_series1 L_PyMath L_aer L_ell L_karney2 L_series2 L_vincenty L_lox L_rcurve L_geodesic2 L_geodesic3 L_geodesic4 L_short3 L_short7 L_short8 L_short9.
Open Scope R_scope.

Lemma speed_bound_on c v L : (forall s, 0 <= s <= L -> vderive c s (v s)) -> (forall s, 0 <= s <= L -> vnorm (v s) <= 1) ->
  forall x y, 0 <= x <= L -> 0 <= y <= L -> vdist3 (c x) (c y) <= Rabs (x - y).
Proof.
  intros HD HK x y Hx Hy. set (d := vsub (c x) (c y)). unfold vdist3. fold d. set (N := vnorm d).
  assert (IN : forall t, Rmin y x <= t <= Rmax y x -> 0 <= t <= L). { intros t [A B]. split; [apply Rle_trans with (2 := A), Rmin_glb; lra|apply Rle_trans with (1 := B), Rmax_lub; lra]. }
  assert (DD : forall t, 0 <= t <= L -> is_derive (fun s => vdot (c s) d) t (vdot (v t) d + vdot (c t) (0, 0, 0))) by (intros t Ht; apply (L_geodesic2.vderive_dot c (fun _ => d)); [now apply HD|apply L_geodesic2.vderive_const]).
  destruct (MVT_gen (fun s => vdot (c s) d) y x (fun s => vdot (v s) d + vdot (c s) (0, 0, 0))) as (z & Hz & E).
  - intros t Ht. apply DD, IN. lra.
  - intros t Ht. apply derivable_continuous_pt. eexists. apply is_derive_Reals. apply DD, IN. exact Ht.
  - assert (Z0 : vdot (c z) (0, 0, 0) = 0) by (rewrite L_geodesic2.vdot_xyz; cbn; ring). rewrite Z0, Rplus_0_r in E.
    assert (LL : vdot (c x) d - vdot (c y) d = N * N). { unfold N. rewrite L_aer.vnorm_sq. unfold d. rewrite !L_geodesic2.vdot_xyz. destruct (c x) as [[? ?] ?], (c y) as [[? ?] ?]. cbn. ring. }
    rewrite LL in E. assert (Np : 0 <= N) by apply L_aer.vnorm_nonneg. pose proof (L_aer.vnorm_nonneg (v z)) as Vp. pose proof (HK z (IN z Hz)) as Kz.
    assert (B : Rabs (vdot (v z) d) <= N).
    { apply Rabs_le. split.
      - pose proof (L_aer.vcauchy (vscale (-1) (v z)) d) as Q. assert (vnorm (vscale (-1) (v z)) = vnorm (v z)) as Qn. { unfold vnorm. f_equal. destruct (v z) as [[? ?] ?]. cbn. ring. }
        rewrite Qn in Q. assert (vdot (vscale (-1) (v z)) d = - vdot (v z) d) as Qd by (destruct (v z) as [[? ?] ?], d as [[? ?] ?]; cbn; ring). rewrite Qd in Q. fold N in Q. clear - Q Kz Np. nra.
      - pose proof (L_aer.vcauchy (v z) d) as Q. fold N in Q. clear - Q Kz Np. nra. }
    destruct (Req_dec N 0) as [->|Nz]; [apply Rabs_pos|].
    assert (E' : N * N = Rabs (vdot (v z) d) * Rabs (x - y)). { rewrite <- Rabs_mult, <- E. rewrite Rabs_right; [reflexivity|]. apply Rle_ge. nra. }
    pose proof (Rabs_pos (x - y)). apply Rmult_le_reg_r with N; [lra|]. rewrite E'. clear - B H Np. nra.
Qed.
Lemma heading_unit phi lam x : is_unit (heading_vector phi lam x).
Proof.
  pose proof (L_PyMath.sc1 phi) as S1. pose proof (L_PyMath.sc1 lam) as S2. pose proof (L_PyMath.sc1 x) as S3. unfold is_unit, heading_vector, north_axis, east_axis, vadd, vscale, vdot.
  match goal with |- ?z = 1 => replace z with (cos x * cos x * (sin phi * sin phi * (sin lam * sin lam + cos lam * cos lam) + cos phi * cos phi) + sin x * sin x * (sin lam * sin lam + cos lam * cos lam)) by ring end. rewrite S2, Rmult_1_r, S1. lra.
Qed.
Lemma rhumb_walk ell az phi lam L : round_enough ell -> 0 <= L -> rhumb_line (ell_a ell) (ell_b ell) az phi lam 0 L ->
  surface_walk ell (fun x => surface_point (ell_a ell) (ell_b ell) (phi x) (lam x)) L (place false ell (phi 0) (lam 0)) (place false ell (phi L) (lam L)).
Proof.
  intros H HL RL. split; [exact HL|]. split; [reflexivity|]. split; [reflexivity|]. split.
  - intros x _. exact (place_on false ell (phi x) (lam x) H).
  - apply speed_bound_on with (v := fun s => heading_vector (phi s) (lam s) az).
    + intros s Hs. apply (RL s Hs).
    + intros s _. rewrite L_geodesic2.unit_norm; [lra|]. apply heading_unit.
Qed.
Lemma round_gentle ell : round_enough ell -> gentle ell.
Proof. intros H. destruct (flat_range ell H) as (F & Eb & Pa & _). split; [apply H|]. rewrite Eb. nra. Qed.
Lemma off_open deg lat : P_karney.off_pole deg lat -> - PI / 2 < as_rad deg lat < PI / 2.
Proof.
  intros P. pose proof (cos_off _ _ P) as C. destruct P as [A _]. unfold lat_ok in A. pose proof PI_RGT_0 as PP.
  assert (R0 : - PI / 2 <= as_rad deg lat <= PI / 2).
  { destruct deg; cbn [quarter as_rad] in *; [|lra]. assert (lat * PI <= 90 * PI) by (apply Rmult_le_compat_r; lra). assert (- 90 * PI <= lat * PI) by (apply Rmult_le_compat_r; lra). lra. }
  split; apply Rnot_le_lt; intros X.
  - replace (as_rad deg lat) with (- (PI / 2)) in C by lra. rewrite cos_neg, cos_PI2 in C. lra.
  - replace (as_rad deg lat) with (PI / 2) in C by lra. rewrite cos_PI2 in C. lra.
Qed.
(** The relative accuracy of the rhumb line lengths (C80). *)
Definition rhumb_err (n : R) : R := n ^ 4 * (1 / 64 + 11 * n + 21 * n ^ 2 + 9000 * n ^ 4).
(** The distance between two points is at most the length of the rhumb line between them. *)
Theorem C90_rhumb_not_shorter : forall T deg ell lat1 lon1 lat2 lon2 s az1 az2 dist az', round_enough ell -> bound_ok T ell -> well_apart T deg ell lat1 lon1 lat2 lon2 ->
  (lat1 <> lat2 \/ lon1 <> lon2) ->
  geodesic_inverse lat1 lon1 lat2 lon2 ell deg = (s, az1, az2) -> loxodrome_inverse lat1 lon1 lat2 lon2 ell deg = Some (dist, az') ->
  let e := 27 / 10 * (ell_a ell * (300 * third ell ^ 7 + 8 / 2 ^ 52)) in
  (1 / 10 ^ 9 <= Rabs (cos (as_rad deg az')) -> s * (1 - rhumb_err (third ell)) <= dist + e) /\
  (Rabs (cos (as_rad deg az')) < 1 / 10 ^ 9 -> Rabs (lon2 - lon1) <= half deg -> s * (1 - 4 / 10 ^ 9) <= dist + e).
Proof.
  intros T deg ell lat1 lon1 lat2 lon2 s az1 az2 dist az' H B W D E EL e. pose proof W as (P1 & P2 & _). pose proof (round_gentle ell H) as GE. pose proof PI_RGT_0 as PP.
  assert (D' : as_rad deg lat1 <> as_rad deg lat2 \/ as_rad deg lon1 <> as_rad deg lon2).
  { destruct D as [D|D]; [left|right]; intros X; apply D; destruct deg; cbn [as_rad] in X; [apply (Rmult_eq_reg_r (PI / 180)); lra|exact X|apply (Rmult_eq_reg_r (PI / 180)); lra|exact X]. }
  destruct (C80_rhumb_lines_join ell _ (as_rad deg lon1) _ (as_rad deg lon2) GE (off_open _ _ P1) (off_open _ _ P2) D') as (az & L & phi & lam & HL & RL & F0 & L0 & F1 & L1).
  assert (C1 : 1 / 10 ^ 9 < cos (phi 0)). { rewrite F0. apply Rlt_le_trans with (2 := proj2 P1). clear. simpl. lra. }
  assert (C2 : 1 / 10 ^ 9 < cos (phi L)). { rewrite F1. apply Rlt_le_trans with (2 := proj2 P2). clear. simpl. lra. }
  destruct (C80_inverse_accurate ell deg az phi lam L lat1 lon1 lat2 lon2 GE HL RL (eq_sym F0) (eq_sym L0) (eq_sym F1) (eq_sym L1) C1 C2) as (dist' & az'' & EL' & CA & _ & A1 & A2).
  rewrite EL in EL'. injection EL' as <- <-. rewrite CA. pose proof (rhumb_walk ell az phi lam L H ltac:(lra) RL) as WK. unfold place in WK. cbn [as_rad] in WK. rewrite F0, L0, F1, L1 in WK. fold (place deg ell lat1 lon1) in WK. fold (place deg ell lat2 lon2) in WK.
  pose proof (C85_shortest T deg ell _ _ _ _ _ _ _ H B W E _ L WK) as K. fold e in K. pose proof (err_small ell H) as [Z0 _]. destruct (flat_range ell H) as (_ & _ & Pa & _).
  assert (E0 : 0 <= e) by (unfold e; apply Rmult_le_pos; [lra|apply Rmult_le_pos; lra]).
  assert (KEY : forall k, 0 <= k <= 1 -> Rabs (dist - L) <= k * L -> s * (1 - k) <= dist + e).
  { intros k Hk Q. apply Rabs_le_between in Q. apply Rle_trans with ((L + e) * (1 - k)); [apply Rmult_le_compat_r; lra|]. assert (0 <= e * k) by (apply Rmult_le_pos; lra). lra. }
  assert (N : 0 <= third ell <= 1 / 150). { split; [now apply third_pos|]. destruct (L_ell.ell_pos ell (proj1 H)) as [Pb Pa']. pose proof H as [_ Hf]. unfold third. apply Rmult_le_reg_r with (ell_a ell + ell_b ell); [lra|]. unfold Rdiv at 1. rewrite Rmult_assoc, Rinv_l by lra. lra. }
  split.
  - intros CC. apply KEY; [|exact (A1 CC)]. unfold rhumb_err. clear - N. set (n := third ell) in *. assert (N4 : 0 <= n ^ 4 <= 1 / 1000) by (split; [apply pow_le; lra|apply Rle_trans with ((1 / 150) ^ 4); [apply pow_incr; lra|simpl; lra]]). assert (0 <= n ^ 2 <= 1) by nra. split; [apply Rmult_le_pos; lra|]. apply Rle_trans with (1 / 1000 * 50); [apply Rmult_le_compat; lra|lra].
  - intros CC HLon. apply KEY; [clear; simpl; lra|]. apply A2; [exact CC|]. rewrite L0, L1. replace (as_rad deg lon2 - as_rad deg lon1) with (as_rad deg (lon2 - lon1)) by (destruct deg; cbn [as_rad]; field). destruct deg; cbn [as_rad half] in *; [|exact HLon].
    replace ((lon2 - lon1) * PI / 180) with ((lon2 - lon1) * (PI / 180)) by field. rewrite Rabs_mult, (Rabs_right (PI / 180)) by lra. apply Rle_trans with (180 * (PI / 180)); [apply Rmult_le_compat_r; lra|lra].
Qed.
(** On the Earth: to 0.01 mm, or 0.1 m when the azimuth is within 1e-9 of due east or west. *)
Theorem C90_rhumb_not_shorter_earth : forall deg lat1 lon1 lat2 lon2 s az1 az2 dist az', well_apart (267 / 100) deg None lat1 lon1 lat2 lon2 ->
  (lat1 <> lat2 \/ lon1 <> lon2) ->
  geodesic_inverse lat1 lon1 lat2 lon2 None deg = (s, az1, az2) -> loxodrome_inverse lat1 lon1 lat2 lon2 None deg = Some (dist, az') ->
  (1 / 10 ^ 9 <= Rabs (cos (as_rad deg az')) -> s <= dist + 1 / 10 ^ 5) /\
  (Rabs (cos (as_rad deg az')) < 1 / 10 ^ 9 -> Rabs (lon2 - lon1) <= half deg -> s <= dist + 1 / 10).
Proof.
  intros deg lat1 lon1 lat2 lon2 s az1 az2 dist az' W D E EL. destruct (C90_rhumb_not_shorter _ deg None _ _ _ _ _ _ _ _ _ wgs84_round earth_bound W D E EL) as [A1 A2]. cbv zeta in A1, A2.
  destruct W as (P1 & P2 & _). pose proof (length_bound _ _ _ _ _ _ _ _ _ wgs84_round P1 P2 E) as [S0 S1]. cbn [ell_a] in S1, A1, A2.
  assert (E7 : 27 / 10 * (6378137 * (300 * third None ^ 7 + 8 / 2 ^ 52)) <= 4 / 10 ^ 8).
  { pose proof wgs84_third as T. assert (T7 : third None ^ 7 <= (16793 / 10000000) ^ 7) by (apply pow_incr; exact T). apply Rle_trans with (27 / 10 * (6378137 * (300 * (16793 / 10000000) ^ 7 + 8 / 2 ^ 52))); [lra|clear; simpl; lra]. }
  set (e := 27 / 10 * (6378137 * (300 * third None ^ 7 + 8 / 2 ^ 52))) in *. clearbody e. split.
  - intros CC. specialize (A1 CC). assert (K : 0 <= rhumb_err (third None) <= 28 / 10 ^ 14).
    { unfold rhumb_err. pose proof wgs84_third as T. set (n := third None) in *. clearbody n. clear - T. assert (N4 : 0 <= n ^ 4 <= (16793 / 10000000) ^ 4) by (split; [apply pow_le; lra|apply pow_incr; lra]). assert (0 <= n ^ 2 <= 3 / 10 ^ 6) by (simpl; nra). assert (n ^ 4 <= 1 / 10 ^ 11) by (apply Rle_trans with (1 := proj2 N4); simpl; lra).
      split; [apply Rmult_le_pos; lra|]. apply Rle_trans with ((16793 / 10000000) ^ 4 * (1 / 64 + 11 * (16793 / 10000000) + 21 * (3 / 10 ^ 6) + 9000 * (1 / 10 ^ 11))); [apply Rmult_le_compat; try lra|simpl; lra]. }
    set (k := rhumb_err (third None)) in *. clearbody k. assert (s * k <= 315 / 100 * 6378137 * (28 / 10 ^ 14)) by (apply Rmult_le_compat; lra). clear - A1 H E7. simpl in *. lra.
  - intros CC HL. specialize (A2 CC HL). clear - A2 E7 S1. simpl in *. lra.
Qed.

(** ** Parallels *)
Lemma parallel_radius ell deg lat : ell_ok ell -> parallel lat ell deg = ell_a ell ^ 2 / sqrt ((ell_a ell * cos (as_rad deg lat)) ^ 2 + (ell_b ell * sin (as_rad deg lat)) ^ 2) * cos (as_rad deg lat).
Proof.
  intros H. unfold parallel. rewrite (L_rcurve.transverse_W ell H). cbn [rad_in]. change as_rad with rad_in. unfold hypot. rewrite Rmult_comm. reflexivity.
Qed.
Lemma parallel_close ell deg lat l l' : ell_ok ell -> 0 <= parallel lat ell deg ->
  vdist3 (surface_point (ell_a ell) (ell_b ell) (as_rad deg lat) l') (surface_point (ell_a ell) (ell_b ell) (as_rad deg lat) l) <= parallel lat ell deg * Rabs (l' - l).
Proof.
  intros H P. replace l' with (l + (l' - l)) at 1 by ring. rewrite L_geodesic4.surface_rot. apply L_geodesic4.rot_close; [exact P|]. rewrite parallel_radius by exact H. unfold surface_point, L_geodesic2.px, L_geodesic2.py. cbn [fst snd].
  set (N := ell_a ell ^ 2 / _). set (C := cos (as_rad deg lat)). right. transitivity ((N * C) ^ 2 * (sin l * sin l + cos l * cos l)); [ring|rewrite L_PyMath.sc1; ring].
Qed.
Lemma parallel_walk deg ell lat lon1 lon2 : round_enough ell -> 0 < cos (as_rad deg lat) ->
  exists d, surface_walk ell d (departure lon1 lon2 lat ell deg) (place deg ell lat lon1) (place deg ell lat lon2).
Proof.
  intros H C. destruct (flat_range ell H) as (_ & _ & Pa & _). destruct (P_lox.C39_departure_meaning ell deg lon1 lon2 lat) as (d & -> & [D0 _] & (k & Ek) & _).
  assert (RP : 0 < parallel lat ell deg). { unfold parallel. apply Rmult_lt_0_compat; [exact C|apply (L_rcurve.transverse_pos ell (proj1 H))]. }
  set (r := parallel lat ell deg) in *. set (z := as_rad deg lon2 - as_rad deg lon1 - IZR k * (2 * PI)) in *.
  assert (SG : exists sg, Rabs sg = 1 /\ z = sg * d). { destruct (Rle_dec 0 z); [exists 1|exists (-1)]; (split; [unfold Rabs; destruct (Rcase_abs _); lra|]); rewrite Ek; [rewrite Rabs_right|rewrite Rabs_left]; lra. }
  destruct SG as (sg & SG & Ez). exists (fun x => surface_point (ell_a ell) (ell_b ell) (as_rad deg lat) (as_rad deg lon1 + sg * (x / r))). split; [apply Rmult_le_pos; lra|]. split; [|split; [|split]].
  - unfold place. f_equal. unfold Rdiv. ring.
  - unfold place. rewrite <- (L_geodesic4.surface_period _ _ _ (as_rad deg lon2) (- k)). f_equal. replace (sg * (r * d / r)) with (sg * d) by (field; lra). rewrite <- Ez. unfold z. rewrite opp_IZR. ring.
  - intros x _. exact (place_on false ell _ _ H).
  - intros x y _ _. eapply Rle_trans; [apply parallel_close; [apply H|fold r; lra]|]. fold r. replace (as_rad deg lon1 + sg * (x / r) - (as_rad deg lon1 + sg * (y / r))) with (sg * ((x - y) * / r)) by (field; lra).
    rewrite !Rabs_mult, SG, Rmult_1_l, (Rabs_right (/ r)) by (left; apply Rinv_0_lt_compat; lra). right. field. lra.
Qed.
Theorem C90_parallel_not_shorter : forall T deg ell lat lon1 lon2 s az1 az2, round_enough ell -> bound_ok T ell -> well_apart T deg ell lat lon1 lat lon2 ->
  geodesic_inverse lat lon1 lat lon2 ell deg = (s, az1, az2) ->
  s <= departure lon1 lon2 lat ell deg + 27 / 10 * (ell_a ell * (300 * third ell ^ 7 + 8 / 2 ^ 52)).
Proof.
  intros T deg ell lat lon1 lon2 s az1 az2 H B W E. destruct (parallel_walk deg ell lat lon1 lon2 H (cos_off _ _ (proj1 W))) as [d WK]. exact (C85_shortest T deg ell _ _ _ _ _ _ _ H B W E d _ WK).
Qed.
(** On the equator the two are equal. *)
Theorem C90_equator : forall deg ell lon1 x s az1 az2, round_enough ell -> 0 < as_rad deg x -> as_rad deg x + 4 * flat ell <= 267 / 100 ->
  geodesic_inverse 0 lon1 0 (lon1 + x) ell deg = (s, az1, az2) -> s = departure lon1 (lon1 + x) 0 ell deg.
Proof.
  intros deg ell lon1 x s az1 az2 H X0 X1 E. destruct (C85_shortest_equator deg ell lon1 x s az1 az2 H X0 X1 E) as [-> _]. pose proof pi_314 as PP. destruct (flat_range ell H) as (F & Eb & Pa & Pb).
  rewrite P_lox.C39_departure_short.
  - rewrite parallel_radius by apply H. replace (as_rad deg 0) with 0 by (destruct deg; cbn [as_rad]; lra). rewrite sin_0, cos_0. replace ((ell_a ell * 1) ^ 2 + (ell_b ell * 0) ^ 2) with (ell_a ell ^ 2) by ring. rewrite sqrt_pow2 by lra. replace (lon1 + x - lon1) with x by ring. rewrite Rabs_right by lra. field. lra.
  - replace (lon1 + x - lon1) with x by ring. destruct deg; cbn [half] in *; unfold as_rad in *; rewrite Rabs_right; try lra; [apply Rmult_le_reg_r with PI; lra|]. left. apply Rmult_lt_reg_r with PI; lra.
Qed.

(** ** Meridians *)
(** Meridians are geodesics; [len] is the meridian length of C77. *)
Lemma meridian_line ell phi0 lam len : round_enough ell -> meridian_length (ell_a ell) (ell_b ell) len -> - PI / 2 < phi0 < PI / 2 ->
  exists phi, phi 0 = phi0 /\ (forall x, - PI / 2 <= x <= PI / 2 -> phi (len x - len phi0) = x) /\
    unit_geodesic (ell_a ell) (ell_b ell) (fun s => surface_point (ell_a ell) (ell_b ell) (phi s) lam) (fun s => north_axis (phi s) lam).
Proof.
  intros H LEN Hp. destruct (round_gentle ell H) as [H0 HF]. pose proof (L_aux7.n_range ell H0 HF) as Hn. set (n := Spec_aux.third (ell_a ell) (ell_b ell)) in *. set (A := (ell_a ell + ell_b ell) / 2). pose proof (L_aux7.A_pos ell H0) as AP. fold A in AP.
  pose proof (L_aux7.mer0_D n Hn) as DM. set (mer := L_aux7.mer0 n) in *. set (M := fun x => meridian x ell false).
  assert (MM : forall x, M x = A * L_aux1.mrad n (cos (2 * x))) by (intros x; apply (L_aux7.meridian_mrad ell H0 HF)).
  assert (Slo : forall x, 4 / 5 <= L_aux1.mrad n (cos (2 * x))) by (intros x; apply L_aux1.mrad_pos; [exact Hn|apply L_series1.cos_abs1]).
  assert (MP : forall x, 0 < M x) by (intros x; apply (L_rcurve.meridian_pos ell H0)).
  set (phi := fun s => L_aux10.finv mer _ DM Slo (mer phi0 + s / A)).
  assert (F : forall s, mer (phi s) = mer phi0 + s / A) by (intros s; apply L_aux10.finv_eq).
  assert (LE : forall x, - PI / 2 <= x <= PI / 2 -> len x = A * mer x) by (intros x Hx; apply (L_aux7.length_mer ell H0 HF len LEN); lra).
  assert (Dphi : forall s, derivable_pt_lim phi s (/ M (phi s))).
  { intros s. rewrite MM. replace (/ (A * L_aux1.mrad n (cos (2 * phi s)))) with (/ L_aux1.mrad n (cos (2 * phi s)) * (/ A)).
    - apply (derivable_pt_lim_comp (fun s => mer phi0 + s / A) (L_aux10.finv mer _ DM Slo)).
      + apply is_derive_Reals. auto_derive; [exact I|]. field. lra.
      + apply L_aux10.finv_derive.
    - field. pose proof (Slo (phi s)). split; lra. }
  exists phi. split; [|split].
  - apply (L_aux10.f_inj mer _ DM Slo). rewrite F. field. lra.
  - intros x Hx. apply (L_aux10.f_inj mer _ DM Slo). rewrite F, !LE by lra. field. lra.
  - intros s. pose proof (MP (phi s)) as Mp. split; [exact (place_on false ell (phi s) lam H)|]. split; [|split].
    + pose proof (derivable_pt_lim_comp phi _ s _ _ (Dphi s) (L_aux9.dP ell H0 (phi s))) as CP. pose proof (derivable_pt_lim_comp phi _ s _ _ (Dphi s) (L_aux9.dZ ell H0 (phi s))) as CZ. fold (M (phi s)) in CP, CZ.
      unfold vderive, north_axis. cbn [fst snd]. split; [|split].
      * replace (- (sin (phi s) * cos lam)) with (- (M (phi s) * sin (phi s)) * / M (phi s) * cos lam + parallel (phi s) ell false * 0) by (field; lra).
        pose proof (derivable_pt_lim_mult _ (fun _ => cos lam) s _ _ CP (derivable_pt_lim_const (cos lam) s)) as C1. apply is_derive_Reals. apply is_derive_Reals in C1. revert C1. apply is_derive_ext. intros x. rewrite (L_aux9.sp_eq ell H0). reflexivity.
      * replace (- (sin (phi s) * sin lam)) with (- (M (phi s) * sin (phi s)) * / M (phi s) * sin lam + parallel (phi s) ell false * 0) by (field; lra).
        pose proof (derivable_pt_lim_mult _ (fun _ => sin lam) s _ _ CP (derivable_pt_lim_const (sin lam) s)) as C1. apply is_derive_Reals. apply is_derive_Reals in C1. revert C1. apply is_derive_ext. intros x. rewrite (L_aux9.sp_eq ell H0). reflexivity.
      * replace (cos (phi s)) with (M (phi s) * cos (phi s) * / M (phi s)) by (field; lra). apply is_derive_Reals. apply is_derive_Reals in CZ. revert CZ. apply is_derive_ext. intros x. rewrite (L_aux9.sp_eq ell H0). reflexivity.
    + unfold is_unit, north_axis, vdot. pose proof (L_PyMath.sc1 (phi s)) as S1. pose proof (L_PyMath.sc1 lam) as S2. match goal with |- ?z = 1 => replace z with (sin (phi s) * sin (phi s) * (sin lam * sin lam + cos lam * cos lam) + cos (phi s) * cos (phi s)) by ring end. rewrite S2. lra.
    + set (p := phi s) in *. set (W := sqrt ((ell_a ell * cos p) ^ 2 + (ell_b ell * sin p) ^ 2)). destruct (flat_range ell H) as (_ & _ & Pa & Pb).
      assert (WP : 0 < W). { unfold W. apply sqrt_lt_R0. pose proof (L_PyMath.sc1 p) as S1. rewrite !Rpow_mult_distr. assert (A2 : 0 < ell_a ell ^ 2) by (apply pow_lt; lra). assert (B2 : 0 < ell_b ell ^ 2) by (apply pow_lt; lra). destruct (Req_dec (cos p) 0) as [Z|Z].
        - rewrite Z in *. assert (0 < sin p ^ 2) by nra. nra.
        - assert (0 < cos p ^ 2) by (apply pow2_gt_0; exact Z). pose proof (pow2_ge_0 (sin p)). nra. }
      exists (- (W / M p)). unfold surface_point. fold W. cbv zeta. unfold gradient, vscale.
      pose proof (derivable_pt_lim_comp phi sin s _ _ (Dphi s) (derivable_pt_lim_sin (phi s))) as CS. pose proof (derivable_pt_lim_comp phi cos s _ _ (Dphi s) (derivable_pt_lim_cos (phi s))) as CC. fold p in CS, CC.
      unfold vderive, north_axis. cbn [fst snd]. split; [|split].
      * match goal with |- derivable_pt_lim _ _ ?v => replace v with (- (cos p * / M p * cos lam + sin p * 0)) by (field; repeat apply conj; lra) end. apply (derivable_pt_lim_opp (fun x => sin (phi x) * cos lam)). exact (derivable_pt_lim_mult _ (fun _ => cos lam) s _ _ CS (derivable_pt_lim_const (cos lam) s)).
      * match goal with |- derivable_pt_lim _ _ ?v => replace v with (- (cos p * / M p * sin lam + sin p * 0)) by (field; repeat apply conj; lra) end. apply (derivable_pt_lim_opp (fun x => sin (phi x) * sin lam)). exact (derivable_pt_lim_mult _ (fun _ => sin lam) s _ _ CS (derivable_pt_lim_const (sin lam) s)).
      * match goal with |- derivable_pt_lim _ _ ?v => replace v with (- sin p * / M p) by (field; repeat apply conj; lra) end. exact CC.
Qed.
Lemma len_upper ell len x y : round_enough ell -> meridian_length (ell_a ell) (ell_b ell) len -> - PI / 2 <= x <= PI / 2 -> - PI / 2 <= y <= PI / 2 -> x <= y -> 0 <= len y - len x <= ell_a ell ^ 2 / ell_b ell * (y - x).
Proof.
  intros H LEN Hx Hy Hxy. destruct (round_gentle ell H) as [H0 HF]. pose proof (L_aux7.n_range ell H0 HF) as Hn. rewrite !(L_aux7.length_mer ell H0 HF len LEN) by lra. set (n := Spec_aux.third (ell_a ell) (ell_b ell)) in *. set (A := (ell_a ell + ell_b ell) / 2).
  pose proof (L_aux7.mer0_D n Hn) as DM. destruct (MVT_gen (L_aux7.mer0 n) x y (fun t => L_aux1.mrad n (cos (2 * t)))) as (c & _ & E); [intros t _; apply DM|intros t _; apply derivable_continuous_pt; eexists; apply is_derive_Reals, DM|].
  rewrite <- Rmult_minus_distr_l, E, <- Rmult_assoc. pose proof (L_aux7.meridian_mrad ell H0 HF c) as Q. fold n A in Q. rewrite <- Q. pose proof (L_rcurve.meridian_pos ell H0 c false) as MP. pose proof (L_rcurve.meridian_le_transverse ell H0 c false). pose proof (L_rcurve.transverse_upper ell H0 c false).
  split; [apply Rmult_le_pos; lra|apply Rmult_le_compat_r; lra].
Qed.
Lemma meridian_upward ell phi1 phi2 lam len : round_enough ell -> meridian_length (ell_a ell) (ell_b ell) len -> - PI / 2 < phi1 < PI / 2 -> - PI / 2 < phi2 < PI / 2 -> phi1 <= phi2 -> phi2 - phi1 + 4 * flat ell <= 267 / 100 ->
  0 <= len phi2 - len phi1 <= 27 / 10 * ell_a ell /\
  exists c t, unit_geodesic (ell_a ell) (ell_b ell) c t /\ c 0 = place false ell phi1 lam /\ c (len phi2 - len phi1) = place false ell phi2 lam.
Proof.
  intros H LEN H1 H2 LE AN. destruct (flat_range ell H) as (F & Eb & Pa & Pb). destruct (len_upper ell len phi1 phi2 H LEN ltac:(lra) ltac:(lra) LE) as [D0 D1]. split.
  - split; [exact D0|]. apply Rle_trans with (1 := D1). replace (ell_a ell ^ 2 / ell_b ell) with (ell_a ell * / (1 - flat ell)) by (rewrite Eb; field; lra). rewrite (Rmult_comm (27 / 10)), Rmult_assoc. apply Rmult_le_compat_l; [lra|].
    apply Rmult_le_reg_l with (1 - flat ell); [lra|]. rewrite <- Rmult_assoc, Rinv_r by lra. nra.
  - destruct (meridian_line ell phi1 lam len H LEN H1) as (phi & E0 & E1 & G). eexists. eexists. split; [exact G|]. cbv beta. rewrite E0, E1 by lra. split; reflexivity.
Qed.
(** On one meridian, geodesic_inverse and meridian_arc agree. *)
Theorem C90_meridian_arc : forall deg ell lat1 lon1 lat2 (k : Z) s az1 az2, round_enough ell -> P_karney.off_pole deg lat1 -> P_karney.off_pole deg lat2 -> (lat1 <> 0 \/ lat2 <> 0) ->
  Rabs (as_rad deg lat2 - as_rad deg lat1) + 4 * flat ell <= 267 / 100 ->
  geodesic_inverse lat1 lon1 lat2 (lon1 + IZR k * full deg) ell deg = (s, az1, az2) ->
  Rabs (s - meridian_arc lat1 lat2 ell deg) <= 27 / 10 * (ell_a ell * (300 * third ell ^ 7 + rhumb_err (third ell))).
Proof.
  intros deg ell lat1 lon1 lat2 k s az1 az2 H P1 P2 NZ AN E. destruct (flat_range ell H) as (F & Eb & Pa & Pb). pose proof (round_gentle ell H) as GE. destruct (C77_meridian_length_exists ell GE) as [[len LEN] _].
  set (lon2 := lon1 + IZR k * full deg) in *. assert (EL : as_rad deg lon2 = as_rad deg lon1 + IZR k * (2 * PI)) by (unfold lon2; destruct deg; cbn [as_rad full]; field).
  assert (SP : place deg ell lat2 lon2 = place deg ell lat2 lon1) by (unfold place; rewrite EL; apply L_geodesic4.surface_period).
  pose proof (off_open _ _ P1) as O1. pose proof (off_open _ _ P2) as O2. pose proof (third7 ell H) as T7. pose proof (err_small ell H) as [_ ES]. assert (T8 : 0 < 8 / 2 ^ 52) by (clear; simpl; lra).
  assert (UA : unit_angle (dir deg lat1 lon1) (dir deg lat2 lon2) = Rabs (as_rad deg lat2 - as_rad deg lat1)).
  { unfold unit_angle, dir, unit_normal. rewrite EL, L_PyMath.cos_period_Z, L_PyMath.sin_period_Z. cbn [vdot]. set (x := as_rad deg lat1) in *. set (y := as_rad deg lat2) in *. set (l := as_rad deg lon1). pose proof (L_PyMath.sc1 l) as S2.
    match goal with |- acos ?z = _ => replace z with (cos (Rabs (y - x))) end; [apply acos_cos; split; [apply Rabs_pos|apply Rabs_le; lra]|].
    assert (Q : cos (Rabs (y - x)) = cos (y - x)) by (unfold Rabs; destruct (Rcase_abs _); [apply cos_neg|reflexivity]). rewrite Q, cos_minus. transitivity (cos x * cos y * (sin l * sin l + cos l * cos l) + sin x * sin y); [rewrite S2; ring|ring]. }
  assert (SZ : sin (as_rad deg lon2 - as_rad deg lon1) = 0). { rewrite EL. replace (as_rad deg lon1 + IZR k * (2 * PI) - as_rad deg lon1) with (0 + IZR k * (2 * PI)) by ring. rewrite L_PyMath.sin_period_Z. apply sin_0. }
  destruct (C85_shortest_if_joined deg ell lat1 lon1 lat2 lon2 s az1 az2 (300 * third ell ^ 7) H P1 P2 ltac:(lra) ltac:(lra) E (C72_inverse_same_meridian _ _ _ _ _ _ _ _ _ H P1 P2 NZ SZ E)) as [A1 (d & L & W & A2)]. rewrite SP in A1, W.
  set (x := as_rad deg lat1) in *. set (y := as_rad deg lat2) in *. set (D := Rabs (len y - len x)).
  assert (K : 0 <= D <= 27 / 10 * ell_a ell /\ (exists d L, surface_walk ell d L (place deg ell lat1 lon1) (place deg ell lat2 lon1) /\ L = D) /\ D <= L).
  { destruct (Rle_dec x y) as [LE|LE].
    - rewrite Rabs_right in AN by lra. destruct (meridian_upward ell x y (as_rad deg lon1) len H LEN O1 O2 LE AN) as (B & c & t & G & C0 & C1). assert (ED : D = len y - len x) by (unfold D; apply Rabs_right; lra). rewrite <- ED in *.
      change (place false ell x (as_rad deg lon1)) with (place deg ell lat1 lon1) in C0. change (place false ell y (as_rad deg lon1)) with (place deg ell lat2 lon1) in C1. split; [exact B|]. split.
      + exists c, D. split; [|reflexivity]. rewrite <- C0, <- C1. apply walk_is; [exact H|]. rewrite Eb in G. apply (L_short7.walk_geo (ell_a ell) (flat ell) c t D G). lra.
      + rewrite <- C0, <- C1 in W. exact (C85_geodesics_are_shortest ell c t D d L H G B W).
    - rewrite Rabs_left in AN by lra. destruct (meridian_upward ell y x (as_rad deg lon1) len H LEN O2 O1 ltac:(lra) ltac:(lra)) as (B & c & t & G & C0 & C1). assert (ED : D = len x - len y) by (unfold D; rewrite Rabs_left1; lra). rewrite <- ED in *.
      change (place false ell x (as_rad deg lon1)) with (place deg ell lat1 lon1) in C1. change (place false ell y (as_rad deg lon1)) with (place deg ell lat2 lon1) in C0. split; [exact B|]. apply walk_is in W; [|exact H]. apply L_short7.walk_back in W. destruct W as [d' W]. split.
      + rewrite Eb in G. destruct (L_short7.walk_back _ _ _ _ _ _ (L_short7.walk_geo (ell_a ell) (flat ell) c t D G ltac:(lra))) as [d2 W2]. rewrite C0, C1 in W2. exists d2, D. split; [|reflexivity]. apply walk_is; [exact H|exact W2].
      + apply walk_is in W; [|exact H]. rewrite <- C0, <- C1 in W. exact (C85_geodesics_are_shortest ell c t D d' L H G B W). }
  destruct K as (KD & (d1 & L1 & W1 & ->) & KL). specialize (A1 d1 D W1).
  assert (Q1 : - quarter deg <= lat1 <= quarter deg) by (pose proof (proj1 P1) as Z; unfold lat_ok in Z; lra). assert (Q2 : - quarter deg <= lat2 <= quarter deg) by (pose proof (proj1 P2) as Z; unfold lat_ok in Z; lra).
  pose proof (C77_meridian_arc_accurate ell deg len lat1 lat2 GE LEN Q1 Q2) as MA. cbv zeta in MA. fold x y D in MA. change (third_of ell) with (third ell) in MA. fold (rhumb_err (third ell)) in MA.
  assert (RE : 0 <= rhumb_err (third ell)). { unfold rhumb_err. pose proof (third_pos ell H) as N. set (n := third ell) in *. assert (0 <= n ^ 4) by (apply pow_le; lra). assert (0 <= n ^ 2) by (apply pow_le; lra). apply Rmult_le_pos; lra. }
  assert (MB : rhumb_err (third ell) * D <= rhumb_err (third ell) * (27 / 10 * ell_a ell)) by (apply Rmult_le_compat_l; lra). assert (Z7 : 0 <= ell_a ell * (300 * third ell ^ 7)) by (apply Rmult_le_pos; lra).
  replace (s - meridian_arc lat1 lat2 ell deg) with ((s - D) - (meridian_arc lat1 lat2 ell deg - D)) by ring. eapply Rle_trans; [apply Rabs_triang|]. rewrite Rabs_Ropp.
  assert (SD : Rabs (s - D) <= 27 / 10 * (ell_a ell * (300 * third ell ^ 7))) by (apply Rabs_le; lra). lra.
Qed.
Theorem C90_meridian_arc_earth : forall deg lat1 lon1 lat2 (k : Z) s az1 az2, P_karney.off_pole deg lat1 -> P_karney.off_pole deg lat2 -> (lat1 <> 0 \/ lat2 <> 0) ->
  Rabs (as_rad deg lat2 - as_rad deg lat1) <= 265 / 100 ->
  geodesic_inverse lat1 lon1 lat2 (lon1 + IZR k * full deg) None deg = (s, az1, az2) ->
  Rabs (s - meridian_arc lat1 lat2 None deg) <= 1 / 10 ^ 5.
Proof.
  intros deg lat1 lon1 lat2 k s az1 az2 P1 P2 NZ AN E. pose proof wgs84_flat as F. eapply Rle_trans; [apply (C90_meridian_arc deg None lat1 lon1 lat2 k s az1 az2 wgs84_round P1 P2 NZ ltac:(lra) E)|].
  pose proof wgs84_third as T. cbn [ell_a]. assert (T7 : third None ^ 7 <= (16793 / 10000000) ^ 7) by (apply pow_incr; exact T). unfold rhumb_err. set (n := third None) in *. clearbody n. clear - T T7.
  assert (N4 : 0 <= n ^ 4 <= (16793 / 10000000) ^ 4) by (split; [apply pow_le; lra|apply pow_incr; lra]). assert (0 <= n ^ 2 <= 3 / 10 ^ 6) by (simpl; nra). assert (n ^ 4 <= 1 / 10 ^ 11) by (apply Rle_trans with (1 := proj2 N4); simpl; lra).
  assert (Q : n ^ 4 * (1 / 64 + 11 * n + 21 * n ^ 2 + 9000 * n ^ 4) <= (16793 / 10000000) ^ 4 * (1 / 64 + 11 * (16793 / 10000000) + 21 * (3 / 10 ^ 6) + 9000 * (1 / 10 ^ 11))) by (apply Rmult_le_compat; lra).
  apply Rle_trans with (27 / 10 * (6378137 * (300 * (16793 / 10000000) ^ 7 + (16793 / 10000000) ^ 4 * (1 / 64 + 11 * (16793 / 10000000) + 21 * (3 / 10 ^ 6) + 9000 * (1 / 10 ^ 11))))); [apply Rmult_le_compat_l; [lra|]; apply Rmult_le_compat_l; [lra|]; lra|simpl; lra].
Qed.
(** The hypotheses are met: rhumb line from 45 N 10 E to 45 S 100 E, parallel of 45 N from
    10 E to 100 E, meridian of 10 E from 45 N to 45 S. *)
Example C90_example_rhumb : well_apart (267 / 100) true None 45 10 (-45) 100 /\ (45 <> -45 \/ 10 <> 100) /\ Rabs (100 - 10) <= half true /\
  exists dist az', loxodrome_inverse 45 10 (-45) 100 None true = Some (dist, az').
Proof.
  destruct C86_example_pair as [W _]. split; [exact W|]. split; [left; lra|]. split; [cbn [half]; rewrite Rabs_right; lra|]. destruct W as (P1 & P2 & _).
  assert (OP : forall lat, -45 <= lat <= 45 -> P_karney.off_pole true lat -> P_lox.off_pole true lat). { intros lat L [_ C]. split; [cbn [quarter]; lra|]. apply Rlt_le_trans with (2 := C). clear. simpl. lra. }
  destruct (P_lox.C40_rhumb_line_partial None I) as (psi & _ & Q). destruct (Q true 45 10 (-45) 100 (OP 45 ltac:(lra) P1) (OP (-45) ltac:(lra) P2)) as (dist & az' & EQ & _). now exists dist, az'.
Qed.
Example C90_example_parallel : well_apart (267 / 100) true None 45 10 45 100.
Proof. apply C86_example_triangle. Qed.
Example C90_example_meridian : P_karney.off_pole true 45 /\ P_karney.off_pole true (-45) /\ Rabs (as_rad true (-45) - as_rad true 45) <= 265 / 100.
Proof.
  destruct C86_example_pair as [(P1 & P2 & _) _]. split; [exact P1|]. split; [exact P2|]. pose proof pi_3145 as PU. pose proof PI_RGT_0. cbn [as_rad]. rewrite Rabs_left; lra.
Qed.
