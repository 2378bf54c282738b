(** Lemmas on auxiliary latitudes. *)
From Coq Require Import Lia Psatz.
From Coquelicot Require Import Coquelicot.
From Verif Require Import PyMath L_PyMath M_ellipsoid M_ecef M_rcurve M_latitude Spec L_ell L_aer L_rcurve L_rsphere.
Open Scope R_scope.

(** ** atan(k tan t) as an atan2 *)
Lemma cos0_range t : - PI / 2 <= t <= PI / 2 -> cos t = 0 -> t = PI / 2 \/ t = - PI / 2.
Proof.
  intros Ht Hc. destruct (Rtotal_order t (PI/2)) as [H|[H|H]]; [|now left|lra].
  destruct (Rtotal_order t (- PI/2)) as [H'|[H'|H']]; [lra|now right|].
  assert (0 < cos t) by (apply cos_gt_0; lra). lra.
Qed.
Lemma mPI2 : - PI / 2 = - (PI / 2). Proof. lra. Qed.
Lemma atan_ktan_atan2 k t : 0 < k -> - PI / 2 <= t <= PI / 2 ->
  atan_ktan k t = atan2 (k * sin t) (cos t).
Proof.
  intros Hk Ht. unfold atan_ktan. destruct (Req_EM_T (cos t) 0) as [Hc|Hc].
  - rewrite Hc. unfold atan2. destruct (Rlt_dec 0 0); [lra|].
    unfold sign. destruct (cos0_range t Ht Hc) as [-> | ->].
    + rewrite sin_PI2. destruct (Rlt_dec 1 0); [lra|]. destruct (Rlt_dec 0 1); [|lra].
      destruct (Rlt_dec 0 (k * 1)); lra.
    + rewrite mPI2, sin_neg, sin_PI2. destruct (Rlt_dec (-(1)) 0); [|lra].
      destruct (Rlt_dec 0 (k * -(1))); [lra|]. destruct (Rlt_dec (k * -(1)) 0); lra.
  - assert (0 < cos t).
    { assert (0 <= cos t) by (apply cos_ge_0; lra). lra. }
    rewrite atan2_pos by assumption. f_equal. rewrite tan_is_sc. field. lra.
Qed.
Lemma atan_ktan_polar k t : 0 < k -> - PI / 2 <= t <= PI / 2 ->
  let u := atan_ktan k t in let r := hypot (cos t) (k * sin t) in
  0 < r /\ r * cos u = cos t /\ r * sin u = k * sin t /\ - PI / 2 <= u <= PI / 2.
Proof.
  intros Hk Ht u r. unfold u. rewrite atan_ktan_atan2 by assumption.
  assert (Hr : 0 < r).
  { apply hypot_pos. destruct (Req_dec (cos t) 0) as [Hc|Hc]; [right|now left].
    pose proof (sc1 t) as H. rewrite Hc in H. intros E. assert (sin t = 0) by nra. nra. }
  assert (Hc : r * cos (atan2 (k * sin t) (cos t)) = cos t) by apply hypot_cos_atan2.
  repeat split; [assumption|assumption|apply hypot_sin_atan2| |].
  - apply Rnot_lt_le. intros Hlt. pose proof (atan2_range (k * sin t) (cos t)).
    set (v := atan2 _ _) in *.
    assert (cos v < 0). { rewrite <- cos_neg. apply cos_lt_0; lra. }
    assert (0 <= cos t) by (apply cos_ge_0; lra). nra.
  - apply Rnot_lt_le. intros Hlt. pose proof (atan2_range (k * sin t) (cos t)).
    set (v := atan2 _ _) in *.
    assert (cos v < 0). { apply cos_lt_0; lra. }
    assert (0 <= cos t) by (apply cos_ge_0; lra). nra.
Qed.
Lemma atan_ktan_inv k k' t : 0 < k -> k' * k = 1 -> - PI / 2 <= t <= PI / 2 ->
  atan_ktan k' (atan_ktan k t) = t.
Proof.
  intros Hk Hk' Ht. destruct (atan_ktan_polar k t Hk Ht) as (Hr & Hc & Hs & Hu).
  assert (0 < k') by nra. pose proof PI_RGT_0.
  rewrite atan_ktan_atan2 by assumption. set (u := atan_ktan k t) in *.
  set (r := hypot _ _) in *.
  apply (atan2_unique _ _ _ (/ r)); [now apply Rinv_0_lt_compat|lra| |].
  - apply Rmult_eq_reg_l with r; [|lra]. replace (r * (k' * sin u)) with (k' * (r * sin u)) by ring.
    rewrite Hs. rewrite <- Rmult_assoc, Hk'. field. lra.
  - apply Rmult_eq_reg_l with r; [|lra]. rewrite Hc. field. lra.
Qed.
Lemma atan_ktan_opp k t : atan_ktan k (- t) = - atan_ktan k t.
Proof.
  unfold atan_ktan. rewrite cos_neg, sin_neg, sign_opp.
  destruct (Req_EM_T (cos t) 0); [lra|].
  rewrite tan_neg. rewrite <- atan_opp. f_equal. ring.
Qed.
Lemma atan_ktan_0 k : atan_ktan k 0 = 0.
Proof.
  unfold atan_ktan. rewrite cos_0, tan_0, Rmult_0_r, atan_0. destruct (Req_EM_T 1 0); lra.
Qed.
Lemma atan_ktan_PI2 k : atan_ktan k (PI/2) = PI/2.
Proof.
  unfold atan_ktan, sign. rewrite cos_PI2, sin_PI2. destruct (Req_EM_T 0 0); [|lra].
  destruct (Rlt_dec 1 0); [lra|]. destruct (Rlt_dec 0 1); lra.
Qed.
(** comparison of two angles through their sine/cosine up to positive factors *)
Lemma angle_lt u v r1 r2 p1 z1 p2 z2 :
  - PI / 2 <= u <= PI / 2 -> - PI / 2 <= v <= PI / 2 -> 0 < r1 -> 0 < r2 ->
  r1 * cos u = p1 -> r1 * sin u = z1 -> r2 * cos v = p2 -> r2 * sin v = z2 ->
  0 < z2 * p1 - z1 * p2 -> u < v.
Proof.
  intros Hu Hv Hr1 Hr2 <- <- <- <- H.
  assert (E : r2 * sin v * (r1 * cos u) - r1 * sin u * (r2 * cos v) = r1 * r2 * sin (v - u)).
  { rewrite sin_minus. ring. }
  rewrite E in H. assert (0 < r1 * r2) by nra. assert (0 < sin (v - u)) by nra.
  apply Rnot_le_lt. intros Hle.
  assert (0 <= sin (u - v)) by (apply sin_ge_0; lra).
  replace (u - v) with (- (v - u)) in * by ring. rewrite sin_neg in *. lra.
Qed.
Lemma rad_range deg x : - quarter deg <= x <= quarter deg -> - PI / 2 <= rad_in deg x <= PI / 2.
Proof.
  intros [A B]. split.
  - rewrite <- (rad_in_mquarter deg). now apply rad_in_le.
  - rewrite <- (rad_in_quarter deg). now apply rad_in_le.
Qed.

Section E.
Variables (ell : option Ellipsoid) (H : ell_ok ell).
Let a := ell_a ell.
Let b := ell_b ell.
Let Hb : 0 < b. Proof. apply (ell_pos ell H). Qed.
Let Hab : b <= a. Proof. apply (ell_pos ell H). Qed.
Let Ha : 0 < a. Proof. lra. Qed.
Let e := eccentricity (resolve_ellipsoid ell).
Let He2 : e ^ 2 = 1 - b ^ 2 / a ^ 2. Proof. apply (ell_e2 ell H). Qed.
Let He0 : 0 <= e. Proof. apply (ell_e_nonneg ell H). Qed.
Let q := b ^ 2 / a ^ 2.
Let Hq : 0 < q <= 1.
Proof. pose proof (ecc_sq_range a b Hb Hab). unfold q. split; [apply Rdiv_lt_0_compat; nra|lra]. Qed.

Lemma one_m_e2 : 1 - e ^ 2 = q. Proof. rewrite He2. unfold q. ring. Qed.
Lemma sqrt_q : sqrt (1 - e ^ 2) = b / a.
Proof.
  rewrite one_m_e2. apply sqrt_uniq; [apply Rlt_le, Rdiv_lt_0_compat; assumption|].
  unfold q. field. lra.
Qed.
Lemma ba_pos : 0 < b / a. Proof. apply Rdiv_lt_0_compat; assumption. Qed.

(** *** parametric *)
Lemma parametric_rt1 lat deg : - quarter deg <= lat <= quarter deg ->
  parametric2geodetic (geodetic2parametric lat ell deg) ell deg = lat.
Proof.
  intros Hl. unfold parametric2geodetic, geodetic2parametric. fold e. rewrite rad_in_deg_out, sqrt_q.
  rewrite atan_ktan_inv; [apply deg_out_rad_in|apply ba_pos| |now apply rad_range].
  field. lra.
Qed.
Lemma parametric_rt2 lat deg : - quarter deg <= lat <= quarter deg ->
  geodetic2parametric (parametric2geodetic lat ell deg) ell deg = lat.
Proof.
  intros Hl. unfold parametric2geodetic, geodetic2parametric. fold e. rewrite rad_in_deg_out, sqrt_q.
  rewrite atan_ktan_inv; [apply deg_out_rad_in| | |now apply rad_range].
  - apply Rinv_0_lt_compat, ba_pos.
  - field. lra.
Qed.
Lemma parametric_is_angle lat lon : - PI / 2 <= lat <= PI / 2 ->
  let beta := geodetic2parametric lat ell false in
  let '(x, y, z) := geodetic2ecef lat lon 0 ell false in
  hypot x y = a * cos beta /\ z = b * sin beta.
Proof.
  intros Hl beta. unfold beta, geodetic2parametric. fold e. cbn [rad_in deg_out]. rewrite sqrt_q.
  destruct (atan_ktan_polar (b/a) lat ba_pos Hl) as (Hr & Hc & Hs & Hu).
  set (u := atan_ktan _ _) in *. set (r := hypot _ _) in *.
  unfold geodetic2ecef. cbn [rad_in]. rewrite resolve_a, resolve_b. fold a b.
  assert (HW : hypot (a * cos lat) (b * sin lat) = a * r).
  { apply hypot_uniq; [nra|]. unfold r. replace (a * hypot (cos lat) (b/a * sin lat) * (a * hypot (cos lat) (b/a * sin lat)))
    with (a ^ 2 * hypot (cos lat) (b/a * sin lat) ^ 2) by ring. rewrite hypot_pow2. field. lra. }
  rewrite HW. split.
  - rewrite Rplus_0_r, hypot_polar.
    + rewrite <- Hc. field. lra.
    + apply Rmult_le_pos; [|apply cos_ge_0; lra]. apply Rlt_le, Rdiv_lt_0_compat; nra.
  - transitivity (b / r * (b / a * sin lat)).
    + field. lra.
    + rewrite <- Hs. field. lra.
Qed.

(** *** geocentric *)
Lemma transverse_b2a lat deg : b ^ 2 / a <= transverse lat ell deg * q.
Proof.
  pose proof (transverse_lower ell H lat deg) as HT. fold a in HT.
  unfold q. replace (b^2/a) with (a * (b^2/a^2)) by (field; lra).
  apply Rmult_le_compat_r; [|exact HT]. fold q. lra.
Qed.
Lemma kfac lat h : - (b ^ 2 / a) < h ->
  let N := transverse lat ell false in
  0 < N + h /\ 0 < N * q + h /\ 1 - e ^ 2 * (N / (N + h)) = (N * q + h) / (N + h) .
Proof.
  intros Hh N. pose proof (transverse_b2a lat false) as HN. fold N in HN.
  assert (0 < N) by apply (transverse_pos ell H).
  assert (N * q <= N) by nra.
  assert (0 < N + h) by lra. repeat split; [lra|lra|].
  replace (e ^ 2) with (1 - q) by (rewrite <- one_m_e2; ring). field. lra.
Qed.
Lemma geocentric_polar lat h : - PI / 2 <= lat <= PI / 2 -> - (b ^ 2 / a) < h ->
  let N := transverse lat ell false in let u := geodetic2geocentric lat h ell false in
  exists r, 0 < r /\ r * cos u = (N + h) * cos lat /\ r * sin u = (N * q + h) * sin lat /\
    - PI / 2 <= u <= PI / 2.
Proof.
  intros Hl Hh N u. destruct (kfac lat h Hh) as (H1 & H2 & H3). fold N in H1, H2, H3.
  unfold u, geodetic2geocentric. cbn [rad_in deg_out]. fold N e. rewrite H3.
  assert (Hk : 0 < (N * q + h) / (N + h)) by now apply Rdiv_lt_0_compat.
  destruct (atan_ktan_polar _ lat Hk Hl) as (Hr & Hc & Hs & Hu).
  set (v := atan_ktan _ _) in *. set (r := hypot _ _) in *.
  exists (r * (N + h)). repeat split; try tauto.
  - nra.
  - rewrite <- Hc. ring.
  - replace (r * (N + h) * sin v) with ((N + h) * (r * sin v)) by ring. rewrite Hs. field. lra.
Qed.
Lemma geodetic2geocentric_ecef lat lon h deg :
  - quarter deg <= lat <= quarter deg -> - (b ^ 2 / a) < h ->
  let '(x, y, z) := geodetic2ecef lat lon h ell deg in
  geodetic2geocentric lat h ell deg = deg_out deg (atan2 z (sqrt (x ^ 2 + y ^ 2))).
Proof.
  intros Hl Hh. unfold geodetic2ecef. rewrite resolve_a, resolve_b. fold a b.
  apply rad_range in Hl. unfold geodetic2geocentric. f_equal. set (t := rad_in deg lat) in *.
  pose proof (geocentric_polar t h Hl Hh) as (r & Hr & Hc & Hs & Hu). cbv zeta in Hc, Hs.
  pose proof (kfac t h Hh) as (H1 & H2 & _). 
  set (N := transverse t ell false) in *. cbv zeta.
  replace (a ^ 2 / hypot (a * cos t) (b * sin t)) with N by (apply (transverse_W ell H t false)).
  fold (hypot ((N + h) * cos t * cos (rad_in deg lon)) ((N + h) * cos t * sin (rad_in deg lon))).
  rewrite hypot_polar.
  - symmetry. apply (atan2_unique _ _ _ r); [assumption| | |].
    + pose proof PI_RGT_0. unfold geodetic2geocentric in Hu. cbn [rad_in deg_out] in Hu.
      fold N e in Hu |- *. lra.
    + unfold geodetic2geocentric in Hs. cbn [rad_in deg_out] in Hs. fold N e in Hs |- *.
      rewrite Hs. unfold q. field. lra.
    + unfold geodetic2geocentric in Hc. cbn [rad_in deg_out] in Hc. fold N e in Hc |- *.
      rewrite Hc. reflexivity.
  - apply Rmult_le_pos; [lra|apply cos_ge_0; lra].
Qed.
Lemma kfac0 u : 1 - e ^ 2 * (transverse u ell false / (transverse u ell false + 0)) = q.
Proof.
  assert (0 < transverse u ell false) by apply (transverse_pos ell H).
  rewrite <- one_m_e2. field. lra.
Qed.
Lemma geocentric_rt0_1 lat deg : - quarter deg <= lat <= quarter deg ->
  geocentric2geodetic (geodetic2geocentric lat 0 ell deg) 0 ell deg = lat.
Proof.
  intros Hl. unfold geocentric2geodetic, geodetic2geocentric. fold e. rewrite rad_in_deg_out.
  rewrite !kfac0.
  rewrite atan_ktan_inv; [apply deg_out_rad_in|lra|field; lra|now apply rad_range].
Qed.
Lemma geocentric_rt0_2 lat deg : - quarter deg <= lat <= quarter deg ->
  geodetic2geocentric (geocentric2geodetic lat 0 ell deg) 0 ell deg = lat.
Proof.
  intros Hl. unfold geocentric2geodetic, geodetic2geocentric. fold e. rewrite rad_in_deg_out.
  rewrite !kfac0.
  rewrite atan_ktan_inv; [apply deg_out_rad_in|apply Rinv_0_lt_compat; lra|field; lra|now apply rad_range].
Qed.
(** Transverse radius determines |sin|. *)
Lemma transverse_inj t u : b < a -> transverse t ell false = transverse u ell false ->
  sin t * sin t = sin u * sin u.
Proof.
  intros Hlt E. rewrite !(transverse_W ell H) in E. cbn [rad_in] in E. fold a b in E.
  pose proof (acbs_pos a b t Hb Hab). pose proof (acbs_pos a b u Hb Hab).
  pose proof (W_sq a b t) as E1. pose proof (W_sq a b u) as E2.
  set (W1 := hypot (a * cos t) _) in *. set (W2 := hypot (a * cos u) _) in *.
  assert (W1 = W2).
  { assert (/ W1 = / W2) by (apply Rmult_eq_reg_l with (a^2); [exact E|nra]).
    rewrite <- (Rinv_inv W1), <- (Rinv_inv W2). now f_equal. }
  pose proof (sc1 t). pose proof (sc1 u). subst W2. rewrite H2 in E1.
  assert ((a^2 - b^2) * (sin t * sin t - sin u * sin u) = 0) by nra.
  apply Rmult_integral in H5. destruct H5; nra.
Qed.
Lemma geocentric_rt_refuted lat h deg : b < a -> 0 < h -> 0 < lat < quarter deg ->
  geocentric2geodetic (geodetic2geocentric lat h ell deg) h ell deg <> lat.
Proof.
  intros Hlt Hh Hl E. unfold geocentric2geodetic in E.
  assert (Hl' : - quarter deg <= lat <= quarter deg) by lra.
  apply rad_range in Hl'. apply (f_equal (rad_in deg)) in E. rewrite rad_in_deg_out in E.
  set (t := rad_in deg lat) in *.
  assert (Ht : 0 < t < PI / 2).
  { unfold t. split.
    - rewrite <- (rad_in_0 deg). apply rad_in_lt; lra.
    - rewrite <- (rad_in_quarter deg). apply rad_in_lt; lra. }
  replace (rad_in deg (geodetic2geocentric lat h ell deg)) with (geodetic2geocentric t h ell false) in E
    by (unfold geodetic2geocentric; rewrite rad_in_deg_out; reflexivity).
  assert (Hh' : - (b ^ 2 / a) < h).
  { assert (0 < b ^ 2 / a) by (apply Rdiv_lt_0_compat; nra). lra. }
  destruct (geocentric_polar t h Hl' Hh') as (r & Hr & Hc & Hs & Hu). cbv zeta in Hc, Hs.
  set (u := geodetic2geocentric t h ell false) in *.
  destruct (kfac t h Hh') as (H1 & H2 & _). destruct (kfac u h Hh') as (H3 & H4 & H5).
  fold e in E. rewrite H5 in E.
  set (N := transverse t ell false) in *. set (M := transverse u ell false) in *.
  assert (Hk : 0 < / ((M * q + h) / (M + h))) by (apply Rinv_0_lt_compat, Rdiv_lt_0_compat; assumption).
  destruct (atan_ktan_polar _ u Hk Hu) as (Hr' & Hc' & Hs' & _). rewrite E in Hc', Hs'.
  set (r' := hypot _ _) in *.
  assert (0 < cos t) by (apply cos_gt_0; lra). assert (0 < sin t) by (apply sin_gt_0; lra).
  (* (M q + h)(N + h) = (N q + h)(M + h) *)
  assert (X : (M * q + h) * (N + h) = (N * q + h) * (M + h)).
  { apply Rmult_eq_reg_r with (r' * r' * (cos t * sin t)); [|apply Rgt_not_eq; repeat apply Rmult_lt_0_compat; assumption].
    assert (Y : r' * sin t * ((M * q + h)) = (M + h) * sin u).
    { rewrite Hs'. field. lra. }
    transitivity ((M * q + h) * (r' * sin t) * ((N + h) * cos t) * r'); [ring|].
    rewrite <- Hc. replace ((M * q + h) * (r' * sin t)) with ((M + h) * sin u) by (rewrite <- Y; ring).
    replace ((M + h) * sin u * (r * cos u) * r') with ((M + h) * (r * sin u) * cos u * r') by ring.
    rewrite Hs, <- Hc'. ring. }
  assert (Hq1 : q < 1). { unfold q. apply Rmult_lt_reg_r with (a^2); [nra|].
    replace (b^2/a^2*a^2) with (b^2) by (field; lra). nra. }
  assert (HMN : M = N).
  { assert (Z : (1 - q) * h * (N - M) = 0) by lra.
    apply Rmult_integral in Z. destruct Z as [Z|Z]; [|lra]. apply Rmult_integral in Z. lra. }
  apply (transverse_inj u t Hlt) in HMN.
  (* sin u = sin t, cos u = cos t; then N q + h = N + h *)
  assert (P1 : 0 < sin u). { assert (0 < r * sin u) by (rewrite Hs; nra). nra. }
  assert (P2 : 0 < cos u). { assert (0 < r * cos u) by (rewrite Hc; nra). nra. }
  assert (Q1 : sin u = sin t) by nra.
  assert (Q2 : cos u = cos t). { pose proof (sc1 u). pose proof (sc1 t). nra. }
  assert (0 < N) by apply (transverse_pos ell H).
  rewrite Q1 in Hs. rewrite Q2 in Hc.
  assert (r = N * q + h) by (apply Rmult_eq_reg_r with (sin t); lra).
  assert (r = N + h) by (apply Rmult_eq_reg_r with (cos t); lra). nra.
Qed.
End E.
