(** Property C99, continued: geodetic2eci and aer2eci in binary64. *)
From Coq Require Import Reals ZArith Lra Lia Psatz.
From Flocq Require Import Core.
From Verif Require Import PyMath M_ellipsoid M_time M_ecef M_frames M_enu M_aer M_earth M_eci M_float M_floatenu M_floattime M_floatsid M_floateci M_floateci2 Spec Spec_time Spec_float P_float L_float P_roundtime P_roundsid P_roundsid2 P_roundeci.
From Verif Require L_eci L_frames L_time P_rounding P_eci.
Open Scope R_scope.

(** ecef2eci in binary64 of a position known to [E] in every coordinate. *)
Lemma ecef2eci_of_near m sq cube sum xf yf zf x y z E t d xp yp p : trig_ok m -> pow_ok sq cube -> sum_ok sum -> valid_dt t -> Rabs d <= 1000 -> Rabs xp <= 100000 -> Rabs yp <= 100000 ->
  Rabs xf + Rabs yf + Rabs zf <= 10 ^ 14 -> Rabs (xf - x) <= E -> Rabs (yf - y) <= E -> Rabs (zf - z) <= E ->
  ecef2eci x y z t d xp yp = Ok p -> exists pf, fl_ecef2eci m sq cube sum xf yf zf t d xp yp = Ok pf /\ forall i, Rabs (v_at pf i - v_at p i) <= rot_err t * Rmax 1 (Rabs x + Rabs y + Rabs z) + 1.74 * E.
Proof.
  intros M P S V HD HX HY HB Ex Ey Ez H. assert (H2 := H). unfold ecef2eci in H2. destruct (eci_to_ecef_matrix t d xp yp) as [A|] eqn:EA; [|discriminate]. cbn [bind] in H2. injection H2 as H2.
  assert (HF : ecef2eci xf yf zf t d xp yp = Ok (eo_matvec3 (eo_transpose3 A) (xf, yf, zf))) by (unfold ecef2eci; rewrite EA; reflexivity).
  destruct (C99_ecef2eci m sq cube sum xf yf zf t d xp yp _ M P S V HD HX HY HB HF) as (pf & E1 & Q). exists pf. split; [exact E1|]. intros i. specialize (Q i). subst p.
  destruct (proj1 (C99_rotation_defined m sq cube sum t d xp yp) (ex_intro _ A EA)) as [Af EF]. destruct (rotation_err m sq cube sum t d xp yp A Af M P S V HD HX HY EA EF) as [_ RS]. clear EF Af.
  pose proof (rot_row (eo_transpose3 A) i (L_frames.transpose_rotation A (L_eci.eci_matrix_rot t d xp yp A EA))) as (_ & _ & _ & RR).
  pose proof (mv_at (eo_transpose3 A) (xf, yf, zf) i) as V1. pose proof (mv_at (eo_transpose3 A) (x, y, z) i) as V2. cbn [v_at] in V1, V2. set (r0 := m_at (eo_transpose3 A) i 0) in *. set (r1 := m_at (eo_transpose3 A) i 1) in *. set (r2 := m_at (eo_transpose3 A) i 2) in *.
  set (wf := v_at (eo_matvec3 (eo_transpose3 A) (xf, yf, zf)) i) in *. set (w := v_at (eo_matvec3 (eo_transpose3 A) (x, y, z)) i) in *. set (q := v_at pf i) in *. clearbody r0 r1 r2 wf w q.
  assert (E0 : 0 <= E) by (pose proof (Rabs_pos (xf - x)); lra).
  assert (D : Rabs (wf - w) <= 1.7321 * E).
  { replace (wf - w) with (r0 * (xf - x) + r1 * (yf - y) + r2 * (zf - z)) by (rewrite V1, V2; ring). pose proof (Rabs_triang (r0 * (xf - x) + r1 * (yf - y)) (r2 * (zf - z))) as T1. pose proof (Rabs_triang (r0 * (xf - x)) (r1 * (yf - y))) as T2. rewrite !Rabs_mult in *.
    pose proof (Rmult_le_compat_l _ _ _ (Rabs_pos r0) Ex). pose proof (Rmult_le_compat_l _ _ _ (Rabs_pos r1) Ey). pose proof (Rmult_le_compat_l _ _ _ (Rabs_pos r2) Ez). assert ((Rabs r0 + Rabs r1 + Rabs r2) * E <= 1.7321 * E) by (apply Rmult_le_compat_r; lra). lra. }
  assert (B : Rmax 1 (Rabs xf + Rabs yf + Rabs zf) <= Rmax 1 (Rabs x + Rabs y + Rabs z) + 3 * E).
  { assert (T : forall a b, Rabs (a - b) <= E -> Rabs a <= Rabs b + E) by (intros a b K; pose proof (Rabs_triang (a - b) b) as T; replace (a - b + b) with a in T by ring; lra). pose proof (T _ _ Ex). pose proof (T _ _ Ey). pose proof (T _ _ Ez). pose proof (Rmax_l 1 (Rabs x + Rabs y + Rabs z)). pose proof (Rmax_r 1 (Rabs x + Rabs y + Rabs z)). apply Rmax_lub; lra. }
  set (X := Rmax 1 (Rabs x + Rabs y + Rabs z)) in *. set (r := rot_err t) in *. clearbody X r. assert (B2 : r * Rmax 1 (Rabs xf + Rabs yf + Rabs zf) <= r * (X + 3 * E)) by (apply Rmult_le_compat_l; lra). assert (B3 : r * E <= / 10000000 * E) by (apply Rmult_le_compat_r; lra).
  replace (q - w) with ((q - wf) + (wf - w)) by ring. apply Rle_trans with (1 := Rabs_triang _ _). lra.
Qed.
Lemma near_sum xf yf zf x y z E B : Rabs (xf - x) < E -> Rabs (yf - y) < E -> Rabs (zf - z) < E -> Rabs x <= B -> Rabs y <= B -> Rabs z <= B -> 3 * (B + E) <= 10 ^ 14 -> Rabs xf + Rabs yf + Rabs zf <= 10 ^ 14.
Proof.
  intros Ex Ey Ez Hx Hy Hz H. assert (T : forall a b, Rabs (a - b) < E -> Rabs a <= Rabs b + E) by (intros a b K; pose proof (Rabs_triang (a - b) b) as T; replace (a - b + b) with a in T by ring; lra). pose proof (T _ _ Ex). pose proof (T _ _ Ey). pose proof (T _ _ Ez). lra.
Qed.
(** A geodetic position in the inertial frame.  [delta_ut1], [xp] and [yp] change nothing, as in the exact model. *)
Theorem C99_geodetic2eci : forall m sq cube sum lat lon h t ell deg d xp yp p, libm_ok m -> trig_ok m -> pow_ok sq cube -> sum_ok sum -> valid_dt t ->
  axes_ok ell -> site_ok lat lon h deg -> reach ell h <= 10 ^ 13 -> geodetic2eci lat lon h t ell deg d xp yp = Ok p ->
  exists pf, fl_geodetic2eci m sq cube sum lat lon h t ell deg d xp yp = Ok pf /\ forall i, Rabs (v_at pf i - v_at p i) <= (3 * rot_err t + 114 * uu) * reach ell h.
Proof.
  intros m sq cube sum lat lon h t ell deg d xp yp p L M P S V AX ST HR H. pose proof (P_rounding.C92_geodetic2ecef m lat lon h ell deg L AX ST) as W. pose proof (P_rounding.geo_ap m L lat lon h ell deg AX ST) as G. unfold geodetic2eci in H. unfold fl_geodetic2eci.
  destruct (fl_geodetic2ecef m lat lon h ell deg) as [[xf yf] zf]. destruct (geodetic2ecef lat lon h ell deg) as [[x y] z]. destruct W as (W1 & W2 & W3). destruct G as ((_ & G1 & _) & (_ & G2 & _) & (_ & G3 & _)).
  pose proof uu_pos as U0. pose proof uu_small as U1. assert (R1 : 1 <= reach ell h) by (destruct AX as [Ha _]; unfold reach; pose proof (Rabs_pos h); lra). set (B := reach ell h) in *. clearbody B. assert (UB : 0 <= uu * B <= 1 / 10 ^ 15 * B) by (split; [apply Rmult_le_pos; lra|apply Rmult_le_compat_r; lra]).
  assert (HB := near_sum _ _ _ _ _ _ _ B W1 W2 W3 G1 G2 G3 ltac:(lra)).
  assert (K0 : Rabs 0 <= 1000) by (rewrite Rabs_R0; lra). assert (K1 : Rabs 0 <= 100000) by (rewrite Rabs_R0; lra).
  destruct (ecef2eci_of_near m sq cube sum xf yf zf x y z (65 * uu * B) t 0 0 0 p M P S V K0 K1 K1 HB (Rlt_le _ _ W1) (Rlt_le _ _ W2) (Rlt_le _ _ W3) H) as (pf & E & Q). exists pf. split; [exact E|]. intros i. specialize (Q i).
  assert (D0 : 0 <= rot_err t). { unfold rot_err. pose proof (Rmax_l 1 (Rabs (IZR (instant t - instant (utc_at 2000 1 1 12 0 0 0))) / (36525 * 86400000000))). destruct (Z.leb _ _); lra. }
  assert (MX : Rmax 1 (Rabs x + Rabs y + Rabs z) <= 3 * B) by (apply Rmax_lub; lra). assert (MR : rot_err t * Rmax 1 (Rabs x + Rabs y + Rabs z) <= rot_err t * (3 * B)) by (apply Rmult_le_compat_l; lra). lra.
Qed.
(** A target given by azimuth, elevation and slant range. *)
Theorem C99_aer2eci : forall m sq cube sum az el sr lat0 lon0 h0 t ell deg d xp yp p, libm_ok m -> trig_ok m -> pow_ok sq cube -> sum_ok sum -> valid_dt t -> Rabs d <= 1000 -> Rabs xp <= 100000 -> Rabs yp <= 100000 ->
  axes_ok ell -> site_ok lat0 lon0 h0 deg -> double az -> double el -> Rabs az <= full deg -> Rabs el <= quarter deg -> / 10 ^ 300 <= Rabs sr -> reach ell h0 + 3 * Rabs sr <= 10 ^ 13 ->
  aer2eci az el sr lat0 lon0 h0 t ell deg d xp yp = Ok p ->
  exists pf, fl_aer2eci m sq cube sum az el sr lat0 lon0 h0 t ell deg d xp yp = Ok pf /\ forall i, Rabs (v_at pf i - v_at p i) <= (3 * rot_err t + 176 * uu) * (reach ell h0 + 3 * Rabs sr).
Proof.
  intros m sq cube sum az el sr lat0 lon0 h0 t ell deg d xp yp p L M P S V HD HX HY AX ST D1 D2 H1 H2 Hs HR H. assert (T := P_rounding.tny_300 _ Hs). pose proof (P_rounding.C92_aer2ecef m az el sr lat0 lon0 h0 ell deg L AX ST D1 D2 H1 H2 Hs) as W.
  assert (G : let '(x, y, z) := aer2ecef az el sr lat0 lon0 h0 ell deg in Rabs x <= reach ell h0 + 3 * Rabs sr /\ Rabs y <= reach ell h0 + 3 * Rabs sr /\ Rabs z <= reach ell h0 + 3 * Rabs sr).
  { pose proof (P_rounding.aer2enu_ap m az el sr (Rabs sr) deg L D1 D2 H1 H2 (Rle_refl _) T) as G. unfold aer2ecef. destruct (fl_aer2enu m az el sr deg) as [[ef nf] pf]. destruct (aer2enu az el sr deg) as [[e n] q]. destruct G as (G1 & G2 & G3).
    assert (K : 35 <= 900) by lra. pose proof (P_rounding.enu2ecef_ap m e n q lat0 lon0 h0 (Rabs sr) ell deg L AX ST 35 ef nf pf G1 G2 G3 T K) as G. unfold enu2ecef in G.
    destruct (fl_geodetic2ecef m lat0 lon0 h0 ell deg) as [[? ?] ?]. destruct (fl_enu2uvw m ef nf pf lat0 lon0 deg) as [[? ?] ?]. destruct (geodetic2ecef lat0 lon0 h0 ell deg) as [[? ?] ?]. destruct (enu2uvw e n q lat0 lon0 deg) as [[? ?] ?]. destruct G as ((_ & Q1 & _) & (_ & Q2 & _) & (_ & Q3 & _)). auto. }
  unfold aer2eci in H. unfold fl_aer2eci. clear Hs T.
  destruct (fl_aer2ecef m az el sr lat0 lon0 h0 ell deg) as [[xf yf] zf]. destruct (aer2ecef az el sr lat0 lon0 h0 ell deg) as [[x y] z]. destruct W as (W1 & W2 & W3). destruct G as (G1 & G2 & G3).
  pose proof uu_pos as U0. pose proof uu_small as U1. assert (R1 : 1 <= reach ell h0 + 3 * Rabs sr) by (destruct AX as [Ha _]; unfold reach; pose proof (Rabs_pos h0); pose proof (Rabs_pos sr); lra). set (B := reach ell h0 + 3 * Rabs sr) in *. clearbody B. assert (UB : 0 <= uu * B <= 1 / 10 ^ 15 * B) by (split; [apply Rmult_le_pos; lra|apply Rmult_le_compat_r; lra]).
  assert (HB := near_sum _ _ _ _ _ _ _ B W1 W2 W3 G1 G2 G3 ltac:(lra)).
  destruct (ecef2eci_of_near m sq cube sum xf yf zf x y z (101 * uu * B) t d xp yp p M P S V HD HX HY HB (Rlt_le _ _ W1) (Rlt_le _ _ W2) (Rlt_le _ _ W3) H) as (pf & E & Q). exists pf. split; [exact E|]. intros i. specialize (Q i).
  assert (D0 : 0 <= rot_err t). { unfold rot_err. pose proof (Rmax_l 1 (Rabs (IZR (instant t - instant (utc_at 2000 1 1 12 0 0 0))) / (36525 * 86400000000))). destruct (Z.leb _ _); lra. }
  assert (MX : Rmax 1 (Rabs x + Rabs y + Rabs z) <= 3 * B) by (apply Rmax_lub; lra). assert (MR : rot_err t * Rmax 1 (Rabs x + Rabs y + Rabs z) <= rot_err t * (3 * B)) by (apply Rmult_le_compat_l; lra). lra.
Qed.
(** A site and a target that qualify, at the datetime of [C99_eci2ecef_hypotheses_met]. *)
Example C99_geodetic2eci_hypotheses_met : site_ok 45 (-75) 200 true /\ axes_ok None /\ reach None 200 + 3 * Rabs 1000000 <= 10 ^ 13 /\
  (exists p, geodetic2eci 45 (-75) 200 (utc_at 2024 2 29 18 0 0 0) None true 0.1 0.2 0.3 = Ok p) /\
  exists p, aer2eci 33 70 1000000 45 (-75) 200 (utc_at 2024 2 29 18 0 0 0) None true 0.1 0.2 0.3 = Ok p.
Proof.
  split. { unfold site_ok, quarter, full. refine (conj _ (conj _ (conj _ (conj _ _)))); try (apply (double_int _); reflexivity); [rewrite Rabs_pos_eq; lra|rewrite Rabs_left; lra]. }
  split; [exact P_rounding.wgs_axes|]. split; [unfold reach; cbn [ell_a]; rewrite !Rabs_pos_eq by lra; lra|]. destruct C99_datetime2sidereal_hypotheses_met as (_ & V & _).
  assert (R : forall d, Rabs d <= 1000 -> forall xp yp, exists A, eci_to_ecef_matrix (utc_at 2024 2 29 18 0 0 0) d xp yp = Ok A).
  { intros d Hd xp yp. apply (P_eci.matrix_defined (utc_at 2024 2 29 18 0 0 0) d xp yp V); [|lra].
    rewrite L_time.first_instant_eq, L_time.last_instant_eq. unfold instant, utc_at. cbn [year month day hour minute second microsecond tzinfo]. rewrite <- L_time.ymd2ord_day_number by lia. vm_compute. intuition discriminate. }
  split.
  - unfold geodetic2eci. destruct (geodetic2ecef _ _ _ _ _) as [[x y] z]. unfold ecef2eci. destruct (R 0 ltac:(rewrite Rabs_R0; lra) 0 0) as [A E]. rewrite E. eexists. reflexivity.
  - unfold aer2eci. destruct (aer2ecef _ _ _ _ _ _ _ _) as [[x y] z]. unfold ecef2eci. destruct (R 0.1 ltac:(rewrite Rabs_pos_eq; lra) 0.2 0.3) as [A E]. rewrite E. eexists. reflexivity.
Qed.
