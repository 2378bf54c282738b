(** Properties C73-C74: how accurately geodetic coordinates survive a round trip. *)
From Coq Require Import Reals Lra Lia Psatz.
From Verif Require Import PyMath M_ellipsoid M_ecef M_enu M_ned M_nwu M_sez M_dca M_aer M_body M_time M_eci Spec.
From Verif Require L_ell L_ecefacc2 L_ecef L_ecefsurj L_frames L_aer L_body L_eci L_PyMath P_frames P_eci.
Import List ListNotations.
Open Scope R_scope.

(** ** Specification *)
(** The error allowed at height h: fourth order in h near the surface, at most
    linear far away, and zero on the surface and on spheres.  With e' the second
    eccentricity, (a/b)^2 e'^4/4 is 1.15e-5 for the Earth. *)
Definition closed_form_error (ell : option Ellipsoid) (h : R) : R :=
  let a := ell_a ell in let b := ell_b ell in
  (a / b) ^ 2 * ((a ^ 2 - b ^ 2) / b ^ 2) ^ 2 *
  (if Rle_dec 0 h then h / 4 * Rmin 1 ((h / b) ^ 3) else 2 * (h ^ 4 / b ^ 3)).

(** [q] are the coordinates [(lat, lon, h)] up to [err] metres: exactly the same
    longitude, latitude to 2 err/b radians, altitude to 2 err, and the point
    itself to err. *)
Definition recovers (ell : option Ellipsoid) (deg : bool) (err : R) (lat lon h : R) (q : vec3) : Prop :=
  let '(lat', lon', h') := q in
  lon' = lon /\ - quarter deg < lat' < quarter deg /\
  Rabs (as_rad deg lat' - as_rad deg lat) <= 2 * err / ell_b ell /\
  Rabs (h' - h) <= 2 * err /\
  vdist3 (geodetic2ecef lat' lon' h' ell deg) (geodetic2ecef lat lon h ell deg) <= err.

(** Hypotheses shared by the theorems. *)
Definition accuracy_domain (ell : option Ellipsoid) (deg : bool) (lat lon h : R) : Prop :=
  ell_ok ell /\ ell_a ell ^ 2 <= 2 * ell_b ell ^ 2 /\
  - quarter deg < lat < quarter deg /\ - half deg < lon <= half deg /\ - (ell_b ell / 8) <= h.

(** ** C73 *)
Theorem C73_roundtrip_accuracy : forall ell lat lon h deg, accuracy_domain ell deg lat lon h ->
  let '(x, y, z) := geodetic2ecef lat lon h ell deg in
  recovers ell deg (closed_form_error ell h) lat lon h (ecef2geodetic x y z ell deg).
Proof.
  intros ell lat lon h deg (H1 & H2 & H3 & H4 & H5).
  pose proof (L_ecefacc2.accuracy ell lat lon h deg H1 H2 H3 H4 H5) as A. cbv zeta in A.
  rewrite L_ecefacc2.err_form in A. unfold recovers.
  destruct (geodetic2ecef lat lon h ell deg) as [[x y] z].
  destruct (ecef2geodetic x y z ell deg) as [[lat' lon'] h']. exact A.
Qed.

(** The other way round: every point on or outside the ellipsoid and off the
    polar axis is reproduced, its height h being that of the exact coordinates. *)
Theorem C73_position_accuracy : forall ell deg x y z,
  ell_ok ell -> ell_a ell ^ 2 <= 2 * ell_b ell ^ 2 -> (x <> 0 \/ y <> 0) ->
  1 <= x ^ 2 / ell_a ell ^ 2 + y ^ 2 / ell_a ell ^ 2 + z ^ 2 / ell_b ell ^ 2 ->
  exists lat lon h, 0 <= h /\ geodetic2ecef lat lon h ell deg = (x, y, z) /\
  let '(lat', lon', h') := ecef2geodetic x y z ell deg in
  vdist3 (geodetic2ecef lat' lon' h' ell deg) (x, y, z) <= closed_form_error ell h.
Proof.
  intros ell deg x y z Hok Hf Hxy Hout. destruct (L_ell.ell_pos ell Hok) as [Hb Ha].
  assert (S : forall z, 0 <= z -> 1 <= x ^ 2 / ell_a ell ^ 2 + y ^ 2 / ell_a ell ^ 2 + z ^ 2 / ell_b ell ^ 2 ->
    exists lat lon h, - quarter deg < lat < quarter deg /\ - half deg < lon <= half deg /\
    0 <= h /\ geodetic2ecef lat lon h ell deg = (x, y, z)) by (intros; now apply L_ecefsurj.g2e_surj_off_axis_up).
  assert (exists lat lon h, - quarter deg < lat < quarter deg /\ - half deg < lon <= half deg /\
    0 <= h /\ geodetic2ecef lat lon h ell deg = (x, y, z)) as (lat & lon & h & H1 & H2 & H3 & H4).
  { destruct (Rle_lt_dec 0 z) as [Hz|Hz]; [now apply S|].
    destruct (S (- z)) as (la & lo & h & H1 & H2 & H3 & H4); [lra|now replace ((- z) ^ 2) with (z ^ 2) by ring|].
    exists (- la), lo, h. repeat split; try lra. rewrite L_ecefsurj.g2e_neg by assumption. rewrite H4. f_equal. ring. }
  exists lat, lon, h. split; [assumption|]. split; [assumption|].
  pose proof (C73_roundtrip_accuracy ell lat lon h deg) as A. rewrite H4 in A. unfold recovers in A.
  assert (D : accuracy_domain ell deg lat lon h).
  { split; [exact Hok|]. split; [exact Hf|]. split; [exact H1|]. split; [exact H2|]. lra. }
  specialize (A D).
  destruct (ecef2geodetic x y z ell deg) as [[lat' lon'] h']. destruct A as (_ & _ & _ & _ & A). now rewrite H4 in A.
Qed.

(** For WGS-84: a nanometre from 1 km below to 10 km above the surface, and 1.3 mm
    up to 400 km. *)
Theorem C73_earth : forall lat lon h deg,
  - quarter deg < lat < quarter deg -> - half deg < lon <= half deg ->
  let '(x, y, z) := geodetic2ecef lat lon h None deg in
  let q := ecef2geodetic x y z None deg in
  (-1000 <= h <= 10000 -> recovers None deg (1 / 10 ^ 9) lat lon h q) /\
  (0 <= h <= 400000 -> recovers None deg (13 / 10 ^ 4) lat lon h q).
Proof.
  intros lat lon h deg Hlat Hlon. pose proof (C73_roundtrip_accuracy None lat lon h deg) as A.
  assert (D : -1000 <= h -> accuracy_domain None deg lat lon h).
  { intros. unfold accuracy_domain, ell_ok, ell_a, ell_b. repeat split; try lra. }
  assert (W : forall e e' q, e <= e' -> recovers None deg e lat lon h q -> recovers None deg e' lat lon h q).
  { intros e e' [[p l] k] He (B1 & B2 & B3 & B4 & B5). unfold recovers. repeat split; try lra.
    eapply Rle_trans; [exact B3|]. unfold ell_b. lra. }
  destruct (geodetic2ecef lat lon h None deg) as [[x y] z]. cbv zeta. split; intros Hh; (eapply W; [|apply A, D; lra]).
  - unfold closed_form_error. cbv zeta. rewrite <- L_ecefacc2.err_form.
    destruct (Rle_dec 0 h) as [H0|H0].
    + eapply Rle_trans; [apply (L_ecefacc2.err_wgs84 h 10000); lra|]. destruct (Rle_dec 0 h); lra.
    + eapply Rle_trans; [apply (L_ecefacc2.err_wgs84 h 1000); lra|]. destruct (Rle_dec 0 h); lra.
  - unfold closed_form_error. cbv zeta. rewrite <- L_ecefacc2.err_form.
    eapply Rle_trans; [apply (L_ecefacc2.err_wgs84 h 400000); lra|]. destruct (Rle_dec 0 h); lra.
Qed.
Example C73_example : accuracy_domain None true 42 (-71) 10000 /\ 0 < closed_form_error None 10000 <= 1 / 10 ^ 9.
Proof.
  split; [unfold accuracy_domain, ell_ok, ell_a, ell_b, quarter, half; repeat split; lra|].
  unfold closed_form_error, ell_a, ell_b. cbv zeta. destruct (Rle_dec 0 10000); [|lra].
  unfold Rmin. destruct (Rle_dec 1 _); lra.
Qed.

(** ** C74 *)
(** Through a local frame and back is exactly through ECEF and back. *)
Theorem C74_local_frames : forall ell deg lat lon h lat0 lon0 h0, accuracy_domain ell deg lat lon h ->
  let good := recovers ell deg (closed_form_error ell h) lat lon h in
  (let '(e, n, u) := geodetic2enu lat lon h lat0 lon0 h0 ell deg in good (enu2geodetic e n u lat0 lon0 h0 ell deg)) /\
  (let '(n, e, d) := geodetic2ned lat lon h lat0 lon0 h0 ell deg in good (ned2geodetic n e d lat0 lon0 h0 ell deg)) /\
  (let '(n, w, u) := geodetic2nwu lat lon h lat0 lon0 h0 ell deg in good (nwu2geodetic n w u lat0 lon0 h0 ell deg)) /\
  (let '(s, e, z) := geodetic2sez lat lon h lat0 lon0 h0 ell deg in good (sez2geodetic s e z lat0 lon0 h0 ell deg)) /\
  (forall heading, let '(dr, cr, above) := geodetic2dca lat lon h lat0 lon0 h0 heading ell deg in
     good (dca2geodetic dr cr above lat0 lon0 h0 heading ell deg)).
Proof.
  intros ell deg lat lon h lat0 lon0 h0 D. cbv zeta.
  pose proof (C73_roundtrip_accuracy ell lat lon h deg D) as A.
  set (err := closed_form_error ell h) in *. clearbody err.
  assert (Hen : let '(e, n, u) := geodetic2enu lat lon h lat0 lon0 h0 ell deg in
     recovers ell deg err lat lon h (enu2geodetic e n u lat0 lon0 h0 ell deg)).
  { unfold geodetic2enu, enu2geodetic. destruct (geodetic2ecef lat lon h ell deg) as [[x y] z] eqn:EP.
    pose proof (L_frames.ecef_enu_ecef x y z lat0 lon0 h0 ell deg) as B. unfold ecef2enu in B.
    destruct (geodetic2ecef lat0 lon0 h0 ell deg) as [[x0 y0] z0].
    destruct (uvw2enu (x - x0) (y - y0) (z - z0) lat0 lon0 deg) as [[e n] u]. now rewrite B. }
  split; [exact Hen|].
  unfold geodetic2ned, ned2geodetic, geodetic2nwu, nwu2geodetic, geodetic2sez, sez2geodetic, geodetic2dca, dca2geodetic.
  destruct (geodetic2enu lat lon h lat0 lon0 h0 ell deg) as [[e n] u].
  rewrite ?Ropp_involutive. repeat (split; [exact Hen|]).
  intros heading. pose proof (L_body.enu_dca_enu e n u heading deg) as B.
  destruct (enu2dca e n u heading deg) as [[dr cr] ab]. now rewrite B.
Qed.

(** Azimuth, elevation and range: exact whenever the target is more than 1 mm
    from the observer along each axis (below that enu2aer rounds to 0). *)
Theorem C74_aer : forall ell deg lat lon h lat0 lon0 h0, accuracy_domain ell deg lat lon h ->
  not_tiny3 (geodetic2enu lat lon h lat0 lon0 h0 ell deg) ->
  let '(az, el, r) := geodetic2aer lat lon h lat0 lon0 h0 ell deg in
  recovers ell deg (closed_form_error ell h) lat lon h (aer2geodetic az el r lat0 lon0 h0 ell deg).
Proof.
  intros ell deg lat lon h lat0 lon0 h0 D T.
  pose proof (C74_local_frames ell deg lat lon h lat0 lon0 h0 D) as [A _]. cbv zeta in A.
  unfold geodetic2aer, aer2geodetic. destruct (geodetic2enu lat lon h lat0 lon0 h0 ell deg) as [[e n] u].
  pose proof (P_frames.C12_enu_aer_enu e n u deg) as B. destruct (enu2aer e n u deg) as [[az el] r].
  destruct B as [_ B]. specialize (B T). unfold aer2ecef. unfold enu2geodetic, enu2ecef in A. rewrite B.
  destruct (geodetic2ecef lat0 lon0 h0 ell deg) as [[x0 y0] z0].
  destruct (enu2uvw e n u lat0 lon0 deg) as [[dx dy] dz]. exact A.
Qed.

Open Scope string_scope.
Theorem C74_body : forall ell deg lat lon h lat0 lon0 h0 yaw pitch roll frame, accuracy_domain ell deg lat lon h ->
  In frame ["ned"; "enu"; "sez"; "nwu"] ->
  exists q, bind (geodetic2body lat lon h lat0 lon0 h0 yaw pitch roll ell frame "zyx" deg)
    (fun '(xb, yb, zb) => body2geodetic xb yb zb lat0 lon0 h0 yaw pitch roll ell frame "zyx" deg) = Ok q /\
  recovers ell deg (closed_form_error ell h) lat lon h q.
Proof.
  intros ell deg lat lon h lat0 lon0 h0 yaw pitch roll frame D F.
  pose proof (C74_local_frames ell deg lat lon h lat0 lon0 h0 D) as (A1 & A2 & A3 & A4 & _). cbv zeta in *.
  unfold geodetic2body, body2geodetic.
  destruct F as [<-|[<-|[<-|[<-|[]]]]]; cbn [String.eqb Ascii.eqb Bool.eqb].
  - destruct (geodetic2ned lat lon h lat0 lon0 h0 ell deg) as [[a b] c]. exists (ned2geodetic a b c lat0 lon0 h0 ell deg). split; [|assumption].
    pose proof (P_frames.C15_local_body_local a b c yaw pitch roll deg) as (B & _).
    destruct (ned2body a b c yaw pitch roll "zyx" deg) as [[[x y] z]|]; cbn [bind] in *; [|discriminate]. now rewrite B.
  - destruct (geodetic2enu lat lon h lat0 lon0 h0 ell deg) as [[a b] c]. exists (enu2geodetic a b c lat0 lon0 h0 ell deg). split; [|assumption].
    pose proof (P_frames.C15_local_body_local a b c yaw pitch roll deg) as (_ & B & _).
    destruct (enu2body a b c yaw pitch roll "zyx" deg) as [[[x y] z]|]; cbn [bind] in *; [|discriminate]. now rewrite B.
  - destruct (geodetic2sez lat lon h lat0 lon0 h0 ell deg) as [[a b] c]. exists (sez2geodetic a b c lat0 lon0 h0 ell deg). split; [|assumption].
    pose proof (P_frames.C15_local_body_local a b c yaw pitch roll deg) as (_ & _ & B & _).
    destruct (sez2body a b c yaw pitch roll "zyx" deg) as [[[x y] z]|]; cbn [bind] in *; [|discriminate]. now rewrite B.
  - destruct (geodetic2nwu lat lon h lat0 lon0 h0 ell deg) as [[a b] c]. exists (nwu2geodetic a b c lat0 lon0 h0 ell deg). split; [|assumption].
    pose proof (P_frames.C15_local_body_local a b c yaw pitch roll deg) as (_ & _ & _ & B).
    destruct (nwu2body a b c yaw pitch roll "zyx" deg) as [[[x y] z]|]; cbn [bind] in *; [|discriminate]. now rewrite B.
Qed.

(** Through the inertial frame, with the same Earth-orientation arguments. *)
Theorem C74_eci : forall ell deg lat lon h t d xp yp x y z, accuracy_domain ell deg lat lon h ->
  (let '(xe, ye, ze) := geodetic2ecef lat lon h ell deg in ecef2eci xe ye ze t d xp yp) = Ok (x, y, z) ->
  exists q, eci2geodetic x y z t ell deg d xp yp = Ok q /\
  recovers ell deg (closed_form_error ell h) lat lon h q.
Proof.
  intros ell deg lat lon h t d xp yp x y z D H.
  pose proof (C73_roundtrip_accuracy ell lat lon h deg D) as A.
  destruct (geodetic2ecef lat lon h ell deg) as [[xe ye] ze].
  apply L_eci.eci_inv2 in H. unfold eci2geodetic. rewrite H. cbn [bind]. eexists. split; [reflexivity|]. exact A.
Qed.
(** geodetic2eci itself, which drops those arguments: for zero ones. *)
Theorem C74_geodetic2eci : forall ell deg lat lon h t d xp yp x y z, accuracy_domain ell deg lat lon h ->
  geodetic2eci lat lon h t ell deg d xp yp = Ok (x, y, z) ->
  exists q, eci2geodetic x y z t ell deg 0 0 0 = Ok q /\
  recovers ell deg (closed_form_error ell h) lat lon h q.
Proof. intros ell deg lat lon h t d xp yp x y z D H. exact (C74_eci ell deg lat lon h t 0 0 0 x y z D H). Qed.
Example C74_example : accuracy_domain None true 0 0 10 /\
  not_tiny3 (geodetic2enu 0 0 10 0 0 0 None true) /\ In "enu" ["ned"; "enu"; "sez"; "nwu"].
Proof.
  split; [unfold accuracy_domain, ell_ok, ell_a, ell_b, quarter, half; repeat split; lra|]. split; [|cbn; tauto].
  unfold geodetic2enu. rewrite !(L_ecef.g2e_unfold None I). cbv zeta.
  unfold uvw2enu, not_tiny3, not_tiny, as_rad, rad_in, radians. cbv zeta.
  replace (0 * PI / 180) with 0 by lra. rewrite sin_0, cos_0.
  split; [left; ring|]. split; [left; ring|]. right.
  match goal with |- _ <= Rabs ?v => replace v with 10 by ring end. rewrite Rabs_pos_eq; lra.
Qed.
