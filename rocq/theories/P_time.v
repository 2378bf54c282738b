(** Properties C22-C25, C61, C64: time scales, sidereal time, azimuth/elevation
    and right ascension/declination. *)
From Coq Require Import Lia Psatz.
From Verif Require Import PyMath M_time M_earth M_sidereal Spec Spec_time.
From Verif Require L_PyMath L_ell L_time L_earth L_eci L_sidereal.

(** ** C22 *)
Open Scope Z_scope.
(** The Julian date is 2451545 at 2000-01-01 12:00 UTC and advances by exactly
    one per 86400 s of elapsed time; OverflowError is raised exactly when the
    UTC instant is not in years 1..9999. *)
Theorem C22_juliandate_exact : forall t, valid_dt t ->
  match juliandate t with
  | Ok jd => jd = (2451545 + IZR (instant t - instant (utc_at 2000 1 1 12 0 0 0)) / 86400000000)%R
  | Raise e => e = OverflowError /\ ~ (first_instant <= instant t <= last_instant)
  end.
Proof.
  intros t V. pose proof (L_earth.juliandate_spec t V) as S. destruct (juliandate t) as [jd|e]; [|exact S].
  destruct S as [_ ->].
  replace (instant (utc_at 2000 1 1 12 0 0 0)) with 63082411200000000%Z.
  - rewrite minus_IZR. lra.
  - unfold instant, utc_at. cbn [year month day hour minute second microsecond tzinfo].
    rewrite <- L_time.ymd2ord_day_number by lia. vm_compute. reflexivity.
Qed.
Theorem C22_defined : forall t, valid_dt t -> first_instant <= instant t <= last_instant ->
  exists jd, juliandate t = Ok jd.
Proof.
  intros t V H. pose proof (L_earth.juliandate_spec t V) as S. destruct (juliandate t) as [jd|e]; [eauto|].
  destruct S as [_ S]. contradiction.
Qed.
Theorem C22_elapsed : forall t1 t2 j1 j2, valid_dt t1 -> valid_dt t2 ->
  juliandate t1 = Ok j1 -> juliandate t2 = Ok j2 ->
  (j2 - j1 = IZR (instant t2 - instant t1) / 86400000000)%R.
Proof.
  intros t1 t2 j1 j2 V1 V2 E1 E2. pose proof (L_earth.juliandate_spec t1 V1) as S1.
  pose proof (L_earth.juliandate_spec t2 V2) as S2. rewrite E1 in S1. rewrite E2 in S2.
  destruct S1 as [_ ->], S2 as [_ ->]. rewrite minus_IZR. lra.
Qed.
Theorem C22_strictly_increasing : forall t1 t2 j1 j2, valid_dt t1 -> valid_dt t2 ->
  juliandate t1 = Ok j1 -> juliandate t2 = Ok j2 ->
  (instant t1 < instant t2 <-> (j1 < j2)%R).
Proof.
  intros t1 t2 j1 j2 V1 V2 E1 E2. pose proof (C22_elapsed t1 t2 j1 j2 V1 V2 E1 E2) as D. rewrite minus_IZR in D.
  split; intros H; [apply IZR_lt in H; lra|apply lt_IZR; lra].
Qed.
(** Two datetimes for the same instant, whatever their time zones. *)
Theorem C22_timezone_independent : forall t1 t2, valid_dt t1 -> valid_dt t2 -> instant t1 = instant t2 ->
  juliandate t1 = juliandate t2.
Proof.
  intros t1 t2 V1 V2 E. pose proof (L_earth.juliandate_spec t1 V1) as S1.
  pose proof (L_earth.juliandate_spec t2 V2) as S2. rewrite E in S1.
  destruct (juliandate t1), (juliandate t2).
  - destruct S1 as [_ ->], S2 as [_ ->]. reflexivity.
  - destruct S1, S2. contradiction.
  - destruct S1, S2. contradiction.
  - destruct S1 as [-> _], S2 as [-> _]. reflexivity.
Qed.
(** ensure_utc keeps the instant. *)
Theorem C22_ensure_utc : forall t u, valid_dt t -> ensure_utc t = Ok u ->
  valid_dt u /\ tzinfo u = Some 0 /\ instant u = instant t.
Proof.
  intros t u V E. pose proof (L_earth.ensure_utc_spec t V) as S. rewrite E in S. destruct S as (S1 & S2 & S3 & _). exact (conj S1 (conj S2 S3)).
Qed.
(** Lists are converted element by element. *)
Theorem C22_list : forall l js, juliandate_list l = Ok js ->
  List.length js = List.length l /\ forall i t, nth_error l i = Some t ->
  exists j, nth_error js i = Some j /\ juliandate t = Ok j.
Proof.
  unfold juliandate_list. induction l as [|t l IH]; intros js E.
  - injection E as <-. split; [reflexivity|]. intros [|i] t H; discriminate.
  - cbn [map_result] in E. destruct (juliandate t) as [j|] eqn:J; [|discriminate]. cbn [bind] in E.
    destruct (map_result juliandate l) as [js'|] eqn:M; [|discriminate]. injection E as <-.
    destruct (IH js' eq_refl) as [L N]. split; [cbn; congruence|]. intros [|i] u H; cbn in *.
    + injection H as <-. eauto.
    + apply N. exact H.
Qed.
(** 2024-02-29 23:30 in a zone 5 h 30 min ahead of UTC is 18:00 UTC. *)
Example C22_hypotheses_met :
  let t := mkdatetime 2024 2 29 23 30 0 0 (Some 19800000000) in
  let u := utc_at 2024 2 29 18 0 0 0 in
  valid_dt t /\ valid_dt u /\ instant t = instant u /\ juliandate u = Ok 2460370.25%R.
Proof.
  cbv zeta. assert (V : valid_dt (utc_at 2024 2 29 18 0 0 0)) by (vm_compute; intuition congruence).
  split; [vm_compute; intuition congruence|]. split; [exact V|]. split; [unfold instant; cbn; lia|].
  destruct (C22_defined _ V) as [jd E].
  - unfold first_instant, last_instant, instant, utc_at. cbn [year month day hour minute second microsecond tzinfo].
    rewrite <- !L_time.ymd2ord_day_number by lia. vm_compute. intuition congruence.
  - rewrite E. f_equal. pose proof (L_earth.juliandate_spec _ V) as S. rewrite E in S. destruct S as [_ ->].
    replace (instant (utc_at 2024 2 29 18 0 0 0)) with 63844912800000000%Z; [lra|].
    unfold instant, utc_at. cbn [year month day hour minute second microsecond tzinfo].
    rewrite <- L_time.ymd2ord_day_number by lia. vm_compute. reflexivity.
Qed.

(** ** C23 *)
Theorem C23_leap_seconds : forall t n, valid_dt t -> leap_seconds t = Ok n -> n = tai_minus_utc (instant t).
Proof. intros t n V E. pose proof (L_earth.leap_seconds_spec t V) as S. rewrite E in S. exact (proj2 S). Qed.
Theorem C23_leap_seconds_defined : forall t, valid_dt t -> first_instant <= instant t <= last_instant ->
  exists n, leap_seconds t = Ok n.
Proof.
  intros t V H. pose proof (L_earth.leap_seconds_spec t V) as S. destruct (leap_seconds t); [eauto|].
  destruct S as [_ S]. contradiction.
Qed.
Theorem C23_leap_seconds_monotone : forall t1 t2 n1 n2, valid_dt t1 -> valid_dt t2 ->
  leap_seconds t1 = Ok n1 -> leap_seconds t2 = Ok n2 -> instant t1 <= instant t2 -> 10 <= n1 <= n2 /\ n2 <= 37.
Proof.
  intros t1 t2 n1 n2 V1 V2 E1 E2 H. apply C23_leap_seconds in E1, E2; try assumption. subst.
  pose proof (L_earth.tai_mono _ _ H). pose proof (L_earth.tai_bounds (instant t1)). pose proof (L_earth.tai_bounds (instant t2)). lia.
Qed.
(** TT = UTC + (TAI - UTC) + 32.184 s, to the microsecond. *)
Theorem C23_utc_to_tt : forall t u, valid_dt t -> utc_to_tt t = Ok u ->
  valid_dt u /\ tzinfo u = Some 0 /\
  instant u = instant t + tai_minus_utc (instant t) * 1000000 + 32184000.
Proof. intros t u V E. pose proof (L_earth.utc_to_tt_spec t V) as S. rewrite E in S. destruct S as (_ & S1 & S2 & S3 & _). exact (conj S1 (conj S2 S3)). Qed.
Theorem C23_utc_to_tt_increasing : forall t1 t2 u1 u2, valid_dt t1 -> valid_dt t2 ->
  utc_to_tt t1 = Ok u1 -> utc_to_tt t2 = Ok u2 -> instant t1 < instant t2 -> instant u1 < instant u2.
Proof.
  intros t1 t2 u1 u2 V1 V2 E1 E2 H. apply C23_utc_to_tt in E1, E2; try assumption.
  destruct E1 as (_ & _ & ->), E2 as (_ & _ & ->). pose proof (L_earth.tai_mono (instant t1) (instant t2)). lia.
Qed.
(** The only failure is a result outside years 1..9999. *)
Theorem C23_utc_to_tt_defined : forall t, valid_dt t -> first_instant <= instant t ->
  instant t + 70000000 <= last_instant -> exists u, utc_to_tt t = Ok u.
Proof.
  intros t V H1 H2. pose proof (L_earth.utc_to_tt_spec t V) as S. destruct (utc_to_tt t); [eauto|].
  destruct S as [_ S]. exfalso. apply S. unfold L_earth.in_range.
  pose proof (L_earth.tai_bounds (instant t)). lia.
Qed.
(** utc_with_offset adds the offset rounded to whole microseconds. *)
Theorem C23_utc_with_offset : forall t s u, valid_dt t -> utc_with_offset t s = Ok u ->
  valid_dt u /\ tzinfo u = Some 0 /\ (Rabs (IZR (instant u) - (IZR (instant t) + s * 1000000)) <= 1 / 2)%R.
Proof.
  intros t s u V E. pose proof (L_earth.ensure_utc_spec t V) as S0.
  assert (Rg : L_earth.in_range (instant t)).
  { unfold utc_with_offset in E. destruct (ensure_utc t); [apply S0|discriminate]. }
  pose proof (L_earth.utc_with_offset_spec t s V Rg) as S. rewrite E in S. destruct S as (S1 & S2 & S3 & _).
  split; [assumption|]. split; [assumption|]. rewrite S3, plus_IZR. unfold timedelta_seconds.
  pose proof (L_earth.round_half_even_near (s * 1000000)%R) as Q. rewrite Rabs_minus_sym.
  replace (IZR (instant t) + s * 1000000 - (IZR (instant t) + IZR (round_half_even (s * 1000000))))%R
    with (s * 1000000 - IZR (round_half_even (s * 1000000)))%R by ring. exact Q.
Qed.
(** The microsecond before and the instant of the 2017 leap second. *)
Example C23_hypotheses_met :
  let t1 := utc_at 2016 12 31 23 59 59 999999 in let t2 := utc_at 2017 1 1 0 0 0 0 in
  valid_dt t1 /\ valid_dt t2 /\ leap_seconds t1 = Ok 36 /\ leap_seconds t2 = Ok 37.
Proof. vm_compute. intuition congruence. Qed.

(** ** C24 *)
Open Scope R_scope.
Theorem C24_range : forall t lon d s, datetime2sidereal t lon d = Ok s -> 0 <= s < 2 * PI.
Proof.
  intros t lon d s. unfold datetime2sidereal.
  destruct (bind (utc_with_offset t d) juliandate); cbn [bind]; [|discriminate].
  destruct (bind (utc_to_tt t) juliandate); cbn [bind]; [|discriminate].
  intros E. injection E as <-. apply L_PyMath.py_mod_range. apply L_PyMath.tau_pos.
Qed.
(** Moving the observer east by x adds x, modulo a full turn. *)
Theorem C24_longitude_law : forall t lon x d s, datetime2sidereal t lon d = Ok s ->
  exists s' k, datetime2sidereal t (lon + x) d = Ok s' /\ s' = s + x + IZR k * (2 * PI).
Proof.
  intros t lon x d s. unfold datetime2sidereal.
  destruct (bind (utc_with_offset t d) juliandate) as [j1|]; cbn [bind]; [|discriminate].
  destruct (bind (utc_to_tt t) juliandate) as [j2|]; cbn [bind]; [|discriminate].
  intros E. injection E as <-. set (g := greenwich_apparent_sidereal_time j1 j2).
  destruct (L_PyMath.py_mod_congr (g + lon) tau L_PyMath.tau_pos) as [k1 ->].
  destruct (L_PyMath.py_mod_congr (g + (lon + x)) tau L_PyMath.tau_pos) as [k2 E2].
  exists (py_mod (g + (lon + x)) tau), (k2 - k1)%Z. split; [reflexivity|].
  rewrite E2, minus_IZR. unfold tau. ring.
Qed.
Theorem C24_timezone_independent : forall t t' lon d, valid_dt t -> valid_dt t' -> instant t = instant t' ->
  datetime2sidereal t lon d = datetime2sidereal t' lon d.
Proof.
  intros t t' lon d V V' E. unfold datetime2sidereal.
  rewrite (L_eci.jd_offset_instant t t' d V V' E), (L_eci.jd_tt_instant t t' V V' E). reflexivity.
Qed.
Theorem C24_greenwich_range : forall jd, 0 <= greenwichsrt jd < 2 * PI.
Proof. intros. apply L_PyMath.py_mod_range. apply L_PyMath.tau_pos. Qed.
(** Within a century of J2000.0 Greenwich sidereal time advances by
    1.00273790935 turns per day of UT1, to within 6 microseconds of time per day. *)
Theorem C24_sidereal_rate : forall j1 j2,
  Rabs (j1 - 2451545) <= 36525 -> Rabs (j2 - 2451545) <= 36525 ->
  exists k : Z, exists err : R, Rabs err <= 0.000006 * Rabs (j2 - j1) /\
  greenwichsrt j2 - greenwichsrt j1
  = 2 * PI * (1.0027379093507955 * (j2 - j1) + err / 86400) + IZR k * (2 * PI).
Proof. exact L_sidereal.gmst_rate. Qed.
(** Datetime lists: one value per element. *)
Theorem C24_list : forall l lon d ss, datetime2sidereal_list l lon d = Ok ss ->
  List.length ss = List.length l /\ forall i t, nth_error l i = Some t ->
  exists s, nth_error ss i = Some s /\ datetime2sidereal t lon d = Ok s.
Proof.
  unfold datetime2sidereal_list. intros l lon d. induction l as [|t l IH]; intros ss E.
  - injection E as <-. split; [reflexivity|]. intros [|i] t H; discriminate.
  - cbn [map_result] in E. destruct (datetime2sidereal t lon d) as [j|] eqn:J; [|discriminate]. cbn [bind] in E.
    destruct (map_result _ l) as [js'|] eqn:M; [|discriminate]. injection E as <-.
    destruct (IH js' eq_refl) as [L N]. split; [cbn; congruence|]. intros [|i] u H; cbn in *.
    + injection H as <-. eauto.
    + apply N. exact H.
Qed.
(** Defined for every instant in years 1..9999 whose UT1 and TT dates are. *)
Theorem C24_defined : forall t lon d, valid_dt t -> 
  (first_instant + 86400000000 <= instant t <= last_instant - 86400000000)%Z -> Rabs d <= 1000 ->
  exists s, datetime2sidereal t lon d = Ok s.
Proof.
  intros t lon d V H Hd.
  assert (Hr : (- 1000000001 <= timedelta_seconds d <= 1000000001)%Z).
  { unfold timedelta_seconds. pose proof (L_earth.round_half_even_near (d * 1000000)) as Q.
    unfold Rabs in Q, Hd. destruct (Rcase_abs _) as [q|q] in Q; destruct (Rcase_abs _) as [h|h] in Hd;
    split; apply le_IZR; lra. }
  unfold datetime2sidereal. rewrite (L_eci.jd_offset_ok t d V) by (unfold L_earth.in_range; lia). cbn [bind].
  pose proof (L_earth.tai_bounds (instant t)).
  rewrite (L_eci.jd_tt_ok t V) by (unfold L_earth.in_range; lia). cbn [bind]. eauto.
Qed.

(** ** C25 *)
(** Components along East, North, Up at latitude phi of the star with
    declination dec whose right ascension exceeds the local sidereal time by x
    (x = minus the hour angle). *)
Definition star_enu (phi dec x : R) : vec3 :=
  let s := unit_normal dec x in (vdot (east_axis phi 0) s, vdot (north_axis phi 0) s, vdot (up_axis phi 0) s).
(** East, North, Up components of the direction (az, el). *)
Definition azel_enu (az el : R) : vec3 := (cos el * sin az, cos el * cos az, sin el).

Lemma star_enu_eq : forall phi dec x, star_enu phi dec x
  = (cos dec * sin x, cos phi * sin dec - sin phi * cos dec * cos x, sin phi * sin dec + cos phi * cos dec * cos x).
Proof.
  intros. unfold star_enu, unit_normal, east_axis, north_axis, up_axis, unit_normal, vdot. rewrite sin_0, cos_0.
  apply L_frames.pair3_eq; ring.
Qed.
Lemma lat_cos_pos : forall lat, Rabs lat < 90 -> 0 < cos (radians lat).
Proof.
  intros lat H. pose proof PI_RGT_0. unfold Rabs in H. destruct (Rcase_abs lat); apply cos_gt_0; unfold radians; nra.
Qed.

Theorem C25_azel2radec : forall az el lat lon t d ra dec th,
  Rabs lat < 90 -> datetime2sidereal t (radians lon) d = Ok th ->
  Rabs (sin (radians el) * sin (radians lat) + cos (radians el) * cos (radians lat) * cos (radians az)) < 1 ->
  azel2radec az el lat lon t d = Ok (ra, dec) ->
  0 <= ra < 360 /\ -90 <= dec <= 90 /\
  star_enu (radians lat) (radians dec) (radians ra - th) = azel_enu (radians az) (radians el).
Proof.
  intros az el lat lon t d ra dec th Hlat Hth HD. unfold azel2radec. rewrite Hth.
  destruct (Rlt_dec 90 (Rabs lat)); [lra|]. cbn [bind]. 
  pose proof (lat_cos_pos lat Hlat) as Cf. apply Rabs_def2 in HD.
  pose proof (L_sidereal.triangle_solved (radians lat) (radians az) (radians el) Cf) as T. cbv zeta in T.
  set (D := sin (radians el) * sin (radians lat) + cos (radians el) * cos (radians lat) * cos (radians az)) in *.
  specialize (T ltac:(lra)).
  set (l := atan2 _ _) in *. destruct T as (T1 & T2 & T3 & T4).
  intros E. injection E as <- <-. split; [apply L_PyMath.py_mod_range; lra|]. split; [apply L_sidereal.asin_deg_range|].
  rewrite L_sidereal.asin_radians_degrees, star_enu_eq.
  destruct (L_sidereal.mod360_trig (th - l)) as [M1 M2].
  assert (S : sin (radians (py_mod (degrees (th - l)) 360) - th) = - sin l).
  { rewrite sin_minus, M1, M2, sin_minus, cos_minus. pose proof (sin2_cos2 th) as Q. unfold Rsqr in Q.
    replace (- sin l) with (- sin l * (sin th * sin th + cos th * cos th)) by (rewrite Q; ring). ring. }
  assert (C : cos (radians (py_mod (degrees (th - l)) 360) - th) = cos l).
  { rewrite cos_minus, M1, M2, sin_minus, cos_minus. pose proof (sin2_cos2 th) as Q. unfold Rsqr in Q.
    replace (cos l) with (cos l * (sin th * sin th + cos th * cos th)) at 3 by (rewrite Q; ring). ring. }
  rewrite S, C, T1. unfold azel_enu. pose proof (sin2_cos2 (radians lat)) as Q. unfold Rsqr in Q.
  set (sf := sin (radians lat)) in *. set (cf := cos (radians lat)) in *. 
  apply L_frames.pair3_eq.
  - lra.
  - replace (sf * cos (asin D) * cos l) with (sf * (cos (asin D) * cos l)) by ring. rewrite T4. unfold D.
    replace (cos (radians el) * cos (radians az)) with (cos (radians el) * cos (radians az) * (sf * sf + cf * cf)) by (rewrite Q; ring). ring.
  - replace (cf * cos (asin D) * cos l) with (cf * (cos (asin D) * cos l)) by ring. rewrite T4. unfold D.
    replace (sin (radians el)) with (sin (radians el) * (sf * sf + cf * cf)) at 3 by (rewrite Q; ring). ring.
Qed.
Theorem C25_radec2azel : forall ra dec lat lon t d az el th,
  Rabs lat < 90 -> datetime2sidereal t (radians lon) d = Ok th ->
  Rabs (sin (radians lat) * sin (radians dec)
        + cos (radians lat) * cos (radians dec) * cos (th - radians ra)) < 1 ->
  radec2azel ra dec lat lon t d = Ok (az, el) ->
  0 <= az < 360 /\ -90 <= el <= 90 /\
  star_enu (radians lat) (radians dec) (radians ra - th) = azel_enu (radians az) (radians el).
Proof.
  intros ra dec lat lon t d az el th Hlat Hth HD. unfold radec2azel. rewrite Hth.
  destruct (Rlt_dec 90 (Rabs lat)); [lra|]. cbn [bind].
  pose proof (lat_cos_pos lat Hlat) as Cf. apply Rabs_def2 in HD.
  set (h := th - radians ra) in *.
  pose proof (L_sidereal.triangle_solved (radians lat) h (radians dec) Cf) as T. cbv zeta in T.
  replace (sin (radians dec) * sin (radians lat) + cos (radians dec) * cos (radians lat) * cos h)
    with (sin (radians lat) * sin (radians dec) + cos (radians lat) * cos (radians dec) * cos h) in T by ring.
  set (D := sin (radians lat) * sin (radians dec) + cos (radians lat) * cos (radians dec) * cos h) in *.
  specialize (T ltac:(lra)).
  replace (- sin h * cos (radians dec)) with (- (sin h * cos (radians dec))) by ring.
  replace (sin (radians dec) - sin (asin D) * sin (radians lat)) with (sin (radians dec) - sin (radians lat) * sin (asin D)) by ring.
  set (l := atan2 _ _) in *. destruct T as (T1 & T2 & T3 & T4).
  intros E. injection E as <- <-. split; [apply L_PyMath.py_mod_range; lra|]. split; [apply L_sidereal.asin_deg_range|].
  rewrite L_sidereal.asin_radians_degrees, star_enu_eq. unfold azel_enu.
  destruct (L_sidereal.mod360_trig l) as [-> ->]. rewrite T1, T3, T4.
  replace (radians ra - th) with (- h) by (unfold h; ring). rewrite sin_neg, cos_neg.
  unfold D. apply L_frames.pair3_eq; ring.
Qed.
(** Outside [-90, 90] both raise ValueError, for every other argument. *)
Theorem C25_latitude_guard : forall a b lat lon t d, 90 < Rabs lat ->
  azel2radec a b lat lon t d = Raise ValueError /\ radec2azel a b lat lon t d = Raise ValueError.
Proof.
  intros. unfold azel2radec, radec2azel. destruct (Rlt_dec 90 (Rabs lat)); [split; reflexivity|lra].
Qed.
(** Round trips, away from zenith/nadir and from the celestial poles. *)
Lemma azel_unique : forall az el az' el', 0 <= az < 360 -> 0 <= az' < 360 -> -90 < el < 90 -> -90 <= el' <= 90 ->
  azel_enu (radians az) (radians el) = azel_enu (radians az') (radians el') -> az = az' /\ el = el'.
Proof.
  intros az el az' el' Ha Ha' He He' E. unfold azel_enu in E. injection E as E1 E2 E3.
  pose proof PI_RGT_0 as P.
  assert (Eel : radians el = radians el').
  { rewrite <- (asin_sin (radians el)), <- (asin_sin (radians el')), E3; [reflexivity| |]; unfold radians; split; nra. }
  assert (el = el') by (unfold radians in Eel; nra). subst el'. split; [|reflexivity].
  assert (C : 0 < cos (radians el)) by (apply cos_gt_0; unfold radians; nra).
  assert (S1 : sin (radians az) = sin (radians az')) by (apply Rmult_eq_reg_l with (cos (radians el)); lra).
  assert (C1 : cos (radians az) = cos (radians az')) by (apply Rmult_eq_reg_l with (cos (radians el)); lra).
  assert (H1 : 0 <= radians az < tau) by (unfold radians, tau; nra).
  assert (H2 : 0 <= radians az' < tau) by (unfold radians, tau; nra).
  assert (radians az = radians az').
  { rewrite <- (L_PyMath.py_mod_atan2 1 (radians az)), <- (L_PyMath.py_mod_atan2 1 (radians az')), S1, C1 by (lra || assumption). reflexivity. }
  unfold radians in *. nra.
Qed.
Lemma star_unique : forall phi dec x dec' x', star_enu phi dec x = star_enu phi dec' x' ->
  unit_normal dec x = unit_normal dec' x'.
Proof.
  intros phi dec x dec' x' E. rewrite !star_enu_eq in E. injection E as E1 E2 E3. unfold unit_normal.
  pose proof (sin2_cos2 phi) as Q. unfold Rsqr in Q. set (s := sin phi) in *. set (c := cos phi) in *.
  assert (G : forall d y, c * (c * sin d - s * cos d * cos y) + s * (s * sin d + c * cos d * cos y) = sin d * (s * s + c * c)) by (intros; ring).
  assert (G' : forall d y, c * (s * sin d + c * cos d * cos y) - s * (c * sin d - s * cos d * cos y) = cos d * cos y * (s * s + c * c)) by (intros; ring).
  assert (A : sin dec = sin dec').
  { pose proof (G dec x) as H1. pose proof (G dec' x') as H2. rewrite E2, E3 in H1. rewrite Q in H1, H2. lra. }
  assert (B : cos dec * cos x = cos dec' * cos x').
  { pose proof (G' dec x) as H1. pose proof (G' dec' x') as H2. rewrite E2, E3 in H1. rewrite Q in H1, H2. lra. }
  apply L_frames.pair3_eq; assumption.
Qed.
Theorem C25_roundtrip : forall az el lat lon t d ra dec,
  Rabs lat < 90 -> 0 <= az < 360 -> -90 < el < 90 ->
  Rabs (sin (radians el) * sin (radians lat) + cos (radians el) * cos (radians lat) * cos (radians az)) < 1 ->
  azel2radec az el lat lon t d = Ok (ra, dec) -> radec2azel ra dec lat lon t d = Ok (az, el).
Proof.
  intros az el lat lon t d ra dec Hlat Ha He HD E.
  assert (exists th, datetime2sidereal t (radians lon) d = Ok th) as [th Hth].
  { unfold azel2radec in E. destruct (Rlt_dec 90 (Rabs lat)); [discriminate|].
    destruct (datetime2sidereal t (radians lon) d); [eauto|discriminate]. }
  destruct (C25_azel2radec az el lat lon t d ra dec th Hlat Hth HD E) as (R1 & R2 & S).
  assert (U : sin (radians lat) * sin (radians dec) + cos (radians lat) * cos (radians dec) * cos (th - radians ra) = sin (radians el)).
  { rewrite star_enu_eq in S. unfold azel_enu in S. injection S as _ _ S.
    replace (th - radians ra) with (- (radians ra - th)) by ring. rewrite cos_neg. exact S. }
  pose proof PI_RGT_0 as P.
  assert (HU : Rabs (sin (radians lat) * sin (radians dec) + cos (radians lat) * cos (radians dec) * cos (th - radians ra)) < 1).
  { rewrite U. assert (C : 0 < cos (radians el)) by (apply cos_gt_0; unfold radians; nra).
    pose proof (sin2_cos2 (radians el)) as Q. unfold Rsqr in Q. apply Rabs_def1; nra. }
  destruct (radec2azel ra dec lat lon t d) as [[az' el']|e] eqn:E2.
  - destruct (C25_radec2azel ra dec lat lon t d az' el' th Hlat Hth HU E2) as (R3 & R4 & S2).
    rewrite S in S2. destruct (azel_unique az el az' el' Ha R3 He R4 S2) as [-> ->]. reflexivity.
  - unfold radec2azel in E2. destruct (Rlt_dec 90 (Rabs lat)); [lra|]. rewrite Hth in E2. discriminate.
Qed.
Theorem C25_roundtrip_back : forall ra dec lat lon t d az el,
  Rabs lat < 90 -> 0 <= ra < 360 -> -90 < dec < 90 ->
  (forall th, datetime2sidereal t (radians lon) d = Ok th ->
   Rabs (sin (radians lat) * sin (radians dec)
        + cos (radians lat) * cos (radians dec) * cos (th - radians ra)) < 1) ->
  radec2azel ra dec lat lon t d = Ok (az, el) -> azel2radec az el lat lon t d = Ok (ra, dec).
Proof.
  intros ra dec lat lon t d az el Hlat Ha He HD E.
  assert (exists th, datetime2sidereal t (radians lon) d = Ok th) as [th Hth].
  { unfold radec2azel in E. destruct (Rlt_dec 90 (Rabs lat)); [discriminate|].
    destruct (datetime2sidereal t (radians lon) d); [eauto|discriminate]. }
  specialize (HD th Hth).
  destruct (C25_radec2azel ra dec lat lon t d az el th Hlat Hth HD E) as (R1 & R2 & S).
  assert (U : sin (radians el) * sin (radians lat) + cos (radians el) * cos (radians lat) * cos (radians az) = sin (radians dec)).
  { rewrite star_enu_eq in S. unfold azel_enu in S. injection S as _ S1 S2. rewrite <- S2.
    replace (cos (radians el) * cos (radians lat) * cos (radians az)) with (cos (radians lat) * (cos (radians el) * cos (radians az))) by ring.
    rewrite <- S1. pose proof (sin2_cos2 (radians lat)) as Q. unfold Rsqr in Q.
    replace (sin (radians dec)) with (sin (radians dec) * (sin (radians lat) * sin (radians lat) + cos (radians lat) * cos (radians lat))) at 3 by (rewrite Q; ring). ring. }
  pose proof PI_RGT_0 as P.
  assert (Cd : 0 < cos (radians dec)) by (apply cos_gt_0; unfold radians; nra).
  assert (HU : Rabs (sin (radians el) * sin (radians lat) + cos (radians el) * cos (radians lat) * cos (radians az)) < 1).
  { rewrite U. pose proof (sin2_cos2 (radians dec)) as Q. unfold Rsqr in Q. apply Rabs_def1; nra. }
  destruct (azel2radec az el lat lon t d) as [[ra' dec']|e] eqn:E2.
  - destruct (C25_azel2radec az el lat lon t d ra' dec' th Hlat Hth HU E2) as (R3 & R4 & S2).
    rewrite <- S in S2. apply star_unique in S2. unfold unit_normal in S2. injection S2 as A1 A2 A3.
    assert (Edec : radians dec' = radians dec).
    { rewrite <- (asin_sin (radians dec)), <- (asin_sin (radians dec')), A3; [reflexivity| |]; unfold radians; split; nra. }
    assert (dec' = dec) by (unfold radians in Edec; nra). subst dec'.
    assert (B1 : cos (radians ra' - th) = cos (radians ra - th)) by (apply Rmult_eq_reg_l with (cos (radians dec)); lra).
    assert (B2 : sin (radians ra' - th) = sin (radians ra - th)) by (apply Rmult_eq_reg_l with (cos (radians dec)); lra).
    assert (C1 : cos (radians ra') = cos (radians ra)).
    { replace (radians ra') with ((radians ra' - th) + th) by ring. replace (radians ra) with ((radians ra - th) + th) by ring.
      rewrite !cos_plus, B1, B2. reflexivity. }
    assert (C2 : sin (radians ra') = sin (radians ra)).
    { replace (radians ra') with ((radians ra' - th) + th) by ring. replace (radians ra) with ((radians ra - th) + th) by ring.
      rewrite !sin_plus, B1, B2. reflexivity. }
    assert (radians ra' = radians ra).
    { rewrite <- (L_PyMath.py_mod_atan2 1 (radians ra')), <- (L_PyMath.py_mod_atan2 1 (radians ra)), C1, C2
        by (try lra; unfold radians, tau; nra). reflexivity. }
    assert (ra' = ra) by (unfold radians in *; nra). subst. reflexivity.
  - unfold azel2radec in E2. destruct (Rlt_dec 90 (Rabs lat)); [lra|]. rewrite Hth in E2. discriminate.
Qed.
(** A direction 30 degrees above the east horizon at latitude 45. *)
Example C25_hypotheses_met :
  Rabs 45 < 90 /\ 0 <= 90 < 360 /\ -90 < 30 < 90 /\
  Rabs (sin (radians 30) * sin (radians 45) + cos (radians 30) * cos (radians 45) * cos (radians 90)) < 1.
Proof.
  rewrite (Rabs_right 45) by lra. repeat split; try lra.
  replace (radians 90) with (PI / 2) by (unfold radians; lra). rewrite cos_PI2, Rmult_0_r, Rplus_0_r.
  replace (radians 30) with (PI / 6) by (unfold radians; lra). rewrite sin_PI6.
  pose proof (SIN_bound (radians 45)). apply Rabs_def1; lra.
Qed.
