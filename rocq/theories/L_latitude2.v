(** Monotonicity, oddness and the series latitudes. *)
From Coq Require Import Lia Psatz.
From Coquelicot Require Import Coquelicot.
From Verif Require Import PyMath L_PyMath M_ellipsoid M_ecef M_rcurve M_latitude Spec L_ell L_aer L_rcurve L_rsphere L_latitude.
Open Scope R_scope.

Lemma mvt f df x y : x < y -> (forall c, x <= c <= y -> is_derive f c (df c)) ->
  exists c, f y - f x = df c * (y - x) /\ x < c < y.
Proof.
  intros Hxy Hd. apply MVT_cor2; [assumption|]. intros c Hc. apply is_derive_Reals. now apply Hd.
Qed.
Lemma mvt_incr f df x y : x < y -> (forall c, x <= c <= y -> is_derive f c (df c)) ->
  (forall c, x < c < y -> 0 < df c) -> f x < f y.
Proof.
  intros Hxy Hd Hp. destruct (mvt f df x y Hxy Hd) as (c & E & Hc). specialize (Hp c Hc). nra.
Qed.
Lemma mvt_decr f df x y : x < y -> (forall c, x <= c <= y -> is_derive f c (df c)) ->
  (forall c, x < c < y -> df c < 0) -> f y < f x.
Proof.
  intros Hxy Hd Hp. destruct (mvt f df x y Hxy Hd) as (c & E & Hc). specialize (Hp c Hc). nra.
Qed.
Lemma odd_increasing Q f : 0 <= Q -> (forall x, - Q <= x <= Q -> f (- x) = - f x) ->
  increasing_on 0 Q f -> increasing_on (- Q) Q f.
Proof.
  intros HQ Ho Hi x y Hx Hxy Hy.
  assert (F0 : f 0 = 0). { assert (- Q <= 0 <= Q) as H0 by lra. specialize (Ho 0 H0). rewrite Ropp_0 in Ho. lra. }
  destruct (Rle_dec 0 x) as [P|P]; [apply Hi; lra|].
  assert (Ex : f x = - f (- x)). { rewrite <- Ho by lra. f_equal. ring. }
  destruct (Rle_dec 0 y) as [P'|P'].
  - assert (0 < f (- x)) by (rewrite <- F0 at 1; apply Hi; lra).
    assert (0 <= f y). { destruct P' as [P'|<-]; [|lra]. left. rewrite <- F0 at 1. apply Hi; lra. }
    lra.
  - assert (Ey : f y = - f (- y)). { rewrite <- Ho by lra. f_equal. ring. }
    assert (f (- y) < f (- x)) by (apply Hi; lra). lra.
Qed.
Lemma unit_increasing deg (g : R -> R) :
  increasing_on (- (PI/2)) (PI/2) g ->
  increasing_on (- quarter deg) (quarter deg) (fun x => deg_out deg (g (rad_in deg x))).
Proof.
  intros Hg x y Hx Hxy Hy. apply deg_out_lt, Hg.
  - rewrite <- mPI2, <- (rad_in_mquarter deg). now apply rad_in_le.
  - now apply rad_in_lt.
  - rewrite <- (rad_in_quarter deg). now apply rad_in_le.
Qed.
Lemma unit_odd deg (g : R -> R) : (forall x, - PI / 2 <= x <= PI / 2 -> g (- x) = - g x) ->
  g (PI/2) = PI/2 -> odd_fixing (quarter deg) (fun x => deg_out deg (g (rad_in deg x))).
Proof.
  intros Ho Hq. pose proof PI_RGT_0.
  assert (G0 : g 0 = 0). { assert (- PI/2 <= 0 <= PI/2) as H0 by lra. specialize (Ho 0 H0). rewrite Ropp_0 in Ho. lra. }
  assert (Hm : g (- PI / 2) = - PI / 2).
  { rewrite mPI2, Ho, Hq by lra. reflexivity. }
  repeat split.
  - intros x Hx. rewrite rad_in_opp, Ho by now apply rad_range. apply deg_out_opp.
  - now rewrite rad_in_0, G0, deg_out_0.
  - now rewrite rad_in_quarter, Hq, deg_out_quarter.
  - now rewrite rad_in_mquarter, Hm, deg_out_mquarter.
Qed.

(** ** Monotone polar angle of ((B/W+h) cos, (A/W+h) sin) *)
Section P.
Variables (a b : R) (Hb : 0 < b) (Hab : b <= a).
Let W t := hypot (a * cos t) (b * sin t).
Variables (A B h : R).
Hypothesis HA : 0 < A.
Hypothesis HB : 0 < B.
Hypothesis HA' : forall t, 0 < A * a ^ 2 / W t ^ 3 + h.
Hypothesis HB' : forall t, 0 < B * b ^ 2 / W t ^ 3 + h.
Let e := mkEllipsoid "" "" a b ((a-b)/a) ((a-b)/(a+b)) (sqrt (1 - b^2/a^2)).
Let He : ell_ok (Some e).
Proof.
  repeat split; cbn; try assumption; try lra; [apply sqrt_pos|].
  replace (sqrt (1 - b * (b * 1) / (a * (a * 1))) * (sqrt (1 - b * (b * 1) / (a * (a * 1))) * 1))
    with (sqrt (1 - b^2/a^2) ^ 2) by (simpl; ring).
  apply pow2_sqrt'. apply (ecc_sq_range a b Hb Hab).
Qed.
Lemma pz_mono t u : 0 <= t -> t < u -> u <= PI / 2 ->
  0 < (A / W u + h) * sin u * ((B / W t + h) * cos t) - (A / W t + h) * sin t * ((B / W u + h) * cos u)
  \/ A / W t + h < 0 \/ B / W u + h < 0.
Proof.
  intros Ht Htu Hu.
  destruct (Rlt_dec (A / W t + h) 0) as [X|X]; [tauto|].
  destruct (Rlt_dec (B / W u + h) 0) as [Y|Y]; [tauto|]. left.
  assert (Z : (A / W t + h) * sin t < (A / W u + h) * sin u).
  { apply (mvt_incr (fun t => (A / W t + h) * sin t) (fun t => (A * a ^ 2 / W t ^ 3 + h) * cos t)); [assumption| |].
    - intros c Hc. pose proof (acbs_pos a b c Hb Hab) as HW. fold (W c) in HW.
      eapply (lin2 _ _ _ 1 A h _ _ _ _ (D_sinW (Some e) He c) (D_sin c)).
      + intros v. pose proof (acbs_pos a b v Hb Hab). cbn [ell_a ell_b semimajor_axis semiminor_axis e].
        fold (W v) in *. cbv beta. field. lra.
      + cbn [ell_a ell_b semimajor_axis semiminor_axis e]. fold (W c). field. lra.
    - intros c Hc. apply Rmult_lt_0_compat; [apply HA'|apply cos_gt_0; lra]. }
  assert (Z' : (B / W u + h) * cos u < (B / W t + h) * cos t).
  { apply (mvt_decr (fun t => (B / W t + h) * cos t) (fun t => (B * b ^ 2 / W t ^ 3 + h) * - sin t)); [assumption| |].
    - intros c Hc. pose proof (acbs_pos a b c Hb Hab) as HW. fold (W c) in HW.
      eapply (lin2 _ _ _ 1 B h _ _ _ _ (D_cosW (Some e) He c) (D_cos c)).
      + intros v. pose proof (acbs_pos a b v Hb Hab). cbn [ell_a ell_b semimajor_axis semiminor_axis e].
        fold (W v) in *. cbv beta. field. lra.
      + cbn [ell_a ell_b semimajor_axis semiminor_axis e]. fold (W c). field. lra.
    - intros c Hc. assert (0 < (B * b ^ 2 / W c ^ 3 + h) * sin c); [|lra].
      apply Rmult_lt_0_compat; [apply HB'|apply sin_gt_0; lra]. }
  assert (0 <= (A / W t + h) * sin t) by (apply Rmult_le_pos; [lra|apply sin_ge_0; lra]).
  assert (0 <= (B / W u + h) * cos u) by (apply Rmult_le_pos; [lra|apply cos_ge_0; lra]).
  nra.
Qed.
End P.

(** ** Sine series *)
Lemma sin_lip u v : Rabs (sin u - sin v) <= Rabs (u - v).
Proof.
  destruct (Req_dec u v) as [->|Hne]; [rewrite !Rminus_eq_0; lra|].
  destruct (MVT_gen sin v u cos) as (c & Hc & E).
  - intros. apply D_sin.
  - intros. apply continuity_pt_filterlim. apply (ex_derive_continuous sin). eexists. apply D_sin.
  - rewrite E, Rabs_mult. pose proof (COS_bound c). pose proof (Rabs_pos (u - v)).
    assert (Rabs (cos c) <= 1) by (apply Rabs_le; lra). nra.
Qed.
Definition sine_series (c1 c2 c3 c4 t : R) : R :=
  t + c1 * sin (2 * t) + c2 * sin (4 * t) + c3 * sin (6 * t) + c4 * sin (8 * t).
Lemma series_odd c1 c2 c3 c4 t : sine_series c1 c2 c3 c4 (- t) = - sine_series c1 c2 c3 c4 t.
Proof.
  unfold sine_series. rewrite !Ropp_mult_distr_r_reverse, !sin_neg. ring.
Qed.
Lemma sin_nPI k : sin (IZR k * PI) = 0.
Proof. apply sin_eq_0_1. now exists k. Qed.
Lemma series_PI2 c1 c2 c3 c4 : sine_series c1 c2 c3 c4 (PI/2) = PI/2.
Proof.
  unfold sine_series.
  replace (2 * (PI/2)) with (1 * PI) by lra. replace (4 * (PI/2)) with (2 * PI) by lra.
  replace (6 * (PI/2)) with (3 * PI) by lra. replace (8 * (PI/2)) with (4 * PI) by lra.
  rewrite (sin_nPI 1), (sin_nPI 2), (sin_nPI 3), (sin_nPI 4). ring.
Qed.
Lemma series_incr c1 c2 c3 c4 :
  2 * Rabs c1 + 4 * Rabs c2 + 6 * Rabs c3 + 8 * Rabs c4 < 1 ->
  forall t u, t < u -> sine_series c1 c2 c3 c4 t < sine_series c1 c2 c3 c4 u.
Proof.
  intros Hc t u Htu. unfold sine_series.
  assert (L : forall c k, 0 < k -> Rabs (c * sin (k * u) - c * sin (k * t)) <= Rabs c * k * (u - t)).
  { intros c k Hk. rewrite <- Rmult_minus_distr_l, Rabs_mult, Rmult_assoc.
    apply Rmult_le_compat_l; [apply Rabs_pos|].
    eapply Rle_trans; [apply sin_lip|]. rewrite Rabs_right by nra. nra. }
  pose proof (L c1 2 ltac:(lra)) as L1. pose proof (L c2 4 ltac:(lra)) as L2.
  pose proof (L c3 6 ltac:(lra)) as L3. pose proof (L c4 8 ltac:(lra)) as L4.
  apply Rabs_le_between in L1, L2, L3, L4. nra.
Qed.

Section E.
Variables (ell : option Ellipsoid) (H : ell_ok ell).
Let a := ell_a ell.
Let b := ell_b ell.
Let Hb : 0 < b. Proof. apply (ell_pos ell H). Qed.
Let Hab : b <= a. Proof. apply (ell_pos ell H). Qed.
Let Ha : 0 < a. Proof. lra. Qed.
Let e := eccentricity (resolve_ellipsoid ell).
Let He2 : e ^ 2 = 1 - b ^ 2 / a ^ 2. Proof. apply (ell_e2 ell H). Qed.
Let He0 : 0 <= e. Proof. apply (ell_e_nonneg ell H). Qed.
Let q := b ^ 2 / a ^ 2.
Let n := thirdflattening (resolve_ellipsoid ell).
Let Hn : n = (a - b) / (a + b). Proof. apply (ell_n ell H). Qed.

(** *** atan_ktan with a constant factor *)
Lemma ktan_incr k : 0 < k -> increasing_on (- (PI/2)) (PI/2) (atan_ktan k).
Proof.
  intros Hk. pose proof PI_RGT_0. apply odd_increasing; [lra|intros; apply atan_ktan_opp|].
  intros x y Hx Hxy Hy.
  assert (Rx : - PI/2 <= x <= PI/2) by lra. assert (Ry : - PI/2 <= y <= PI/2) by lra.
  destruct (atan_ktan_polar k x Hk Rx) as (R1 & C1 & S1 & U1).
  destruct (atan_ktan_polar k y Hk Ry) as (R2 & C2 & S2 & U2).
  eapply (angle_lt _ _ _ _ _ _ _ _ U1 U2 R1 R2 C1 S1 C2 S2).
  replace (k * sin y * cos x - k * sin x * cos y) with (k * sin (y - x)) by (rewrite sin_minus; ring).
  apply Rmult_lt_0_compat; [assumption|apply sin_gt_0; lra].
Qed.
Lemma parametric_props deg :
  odd_fixing (quarter deg) (fun x => geodetic2parametric x ell deg) /\
  increasing_on (- quarter deg) (quarter deg) (fun x => geodetic2parametric x ell deg) /\
  odd_fixing (quarter deg) (fun x => parametric2geodetic x ell deg) /\
  increasing_on (- quarter deg) (quarter deg) (fun x => parametric2geodetic x ell deg).
Proof.
  unfold geodetic2parametric, parametric2geodetic.
  rewrite (sqrt_q ell H). fold a b. pose proof (ba_pos ell H) as Hp. fold a b in Hp.
  repeat match goal with |- _ /\ _ => apply conj end.
  - apply (unit_odd deg (atan_ktan (b/a))); [intros; apply atan_ktan_opp|apply atan_ktan_PI2].
  - apply (unit_increasing deg (atan_ktan (b/a))), ktan_incr, Hp.
  - apply (unit_odd deg (atan_ktan (/(b/a)))); [intros; apply atan_ktan_opp|apply atan_ktan_PI2].
  - apply (unit_increasing deg (atan_ktan (/(b/a)))), ktan_incr, Rinv_0_lt_compat, Hp.
Qed.

(** *** geocentric *)
Lemma transverse_opp t : transverse (- t) ell false = transverse t ell false.
Proof. unfold transverse. cbn [rad_in]. rewrite sin_neg. do 2 f_equal. ring. Qed.
Let g1 h t := atan_ktan (1 - e ^ 2 * (transverse t ell false / (transverse t ell false + h))) t.
Let g2 h t := atan_ktan (/ (1 - e ^ 2 * (transverse t ell false / (transverse t ell false + h)))) t.
Lemma W3_bounds t : b ^ 3 <= hypot (a * cos t) (b * sin t) ^ 3 <= a ^ 3.
Proof.
  pose proof (W_bounds ell H t) as [B1 B2]. fold a b in B1, B2.
  split; apply pow_incr; lra.
Qed.
Lemma W3_inv t k : 0 <= k -> k / a ^ 3 <= k / hypot (a * cos t) (b * sin t) ^ 3.
Proof.
  intros Hk. apply Rmult_le_compat_l; [assumption|]. apply Rinv_le_contravar.
  - apply pow_lt, acbs_pos; assumption.
  - apply W3_bounds.
Qed.
Lemma g1_incr h : - (b ^ 2 / a) < h -> increasing_on (- (PI/2)) (PI/2) (g1 h).
Proof.
  intros Hh. pose proof PI_RGT_0. apply odd_increasing; [lra| |].
  { intros. unfold g1. rewrite transverse_opp. apply atan_ktan_opp. }
  intros x y Hx Hxy Hy.
  assert (Rx : - PI/2 <= x <= PI/2) by lra. assert (Ry : - PI/2 <= y <= PI/2) by lra.
  destruct (geocentric_polar ell H x h Rx Hh) as (r1 & R1 & C1 & S1 & U1).
  destruct (geocentric_polar ell H y h Ry Hh) as (r2 & R2 & C2 & S2 & U2).
  cbv zeta in C1, C2, S1, S2.
  refine (angle_lt _ _ _ _ _ _ _ _ U1 U2 R1 R2 C1 S1 C2 S2 _).
  destruct (kfac ell H x h Hh) as (P1 & P2 & _). destruct (kfac ell H y h Hh) as (P3 & P4 & _).
  rewrite !(transverse_W ell H) in *. cbn [rad_in] in *. fold a b in P1, P2, P3, P4 |- *.
  assert (EA : forall t, a ^ 2 / hypot (a * cos t) (b * sin t) * (b ^ 2 / a ^ 2) = b ^ 2 / hypot (a * cos t) (b * sin t)).
  { intros t. pose proof (acbs_pos a b t Hb Hab). field. lra. }
  rewrite !EA in *.
  assert (Q : forall t, 0 < b ^ 2 * a ^ 2 / hypot (a * cos t) (b * sin t) ^ 3 + h).
  { intros t. pose proof (W3_inv t (b ^ 2 * a ^ 2)) as X. specialize (X ltac:(nra)).
    replace (b^2*a^2/a^3) with (b^2/a) in X by (field; lra). lra. }
  destruct (pz_mono a b Hb Hab (b^2) (a^2) h Q) with (t := x) (u := y) as [Y|[Y|Y]]; try lra.
  intros t. rewrite (Rmult_comm (a^2)). apply Q.
Qed.
Lemma g2_polar lat h : - PI / 2 <= lat <= PI / 2 -> - (b ^ 2 / a) < h ->
  let N := transverse lat ell false in let u := g2 h lat in
  exists r, 0 < r /\ r * cos u = (N * q + h) * cos lat /\ r * sin u = (N + h) * sin lat /\
    - PI / 2 <= u <= PI / 2.
Proof.
  intros Hl Hh N u. destruct (kfac ell H lat h Hh) as (H1 & H2 & H3). fold N e in H1, H2, H3.
  fold a b in H2, H3. fold q in H2, H3.
  unfold u, g2. fold N. rewrite H3.
  assert (Hk : 0 < / ((N * q + h) / (N + h))) by (apply Rinv_0_lt_compat; now apply Rdiv_lt_0_compat).
  destruct (atan_ktan_polar _ lat Hk Hl) as (Hr & Hc & Hs & Hu).
  set (v := atan_ktan _ _) in *. set (r := hypot _ _) in *.
  exists (r * (N * q + h)). repeat split; try tauto.
  - nra.
  - rewrite <- Hc. ring.
  - replace (r * (N * q + h) * sin v) with ((N * q + h) * (r * sin v)) by ring. rewrite Hs. field. lra.
Qed.
Lemma g2_incr h : - (b ^ 4 / a ^ 3) < h -> increasing_on (- (PI/2)) (PI/2) (g2 h).
Proof.
  intros Hh'. pose proof PI_RGT_0.
  assert (Hh : - (b ^ 2 / a) < h).
  { assert (b ^ 4 / a ^ 3 <= b ^ 2 / a); [|lra].
    apply Rmult_le_reg_r with (a ^ 3); [apply pow_lt; lra|].
    replace (b^4/a^3*a^3) with (b^2*b^2) by (field; lra).
    replace (b^2/a*a^3) with (b^2*a^2) by (field; lra).
    apply Rmult_le_compat_l; nra. }
  apply odd_increasing; [lra| |].
  { intros. unfold g2. rewrite transverse_opp. apply atan_ktan_opp. }
  intros x y Hx Hxy Hy.
  assert (Rx : - PI/2 <= x <= PI/2) by lra. assert (Ry : - PI/2 <= y <= PI/2) by lra.
  destruct (g2_polar x h Rx Hh) as (r1 & R1 & C1 & S1 & U1).
  destruct (g2_polar y h Ry Hh) as (r2 & R2 & C2 & S2 & U2).
  cbv zeta in C1, C2, S1, S2.
  refine (angle_lt _ _ _ _ _ _ _ _ U1 U2 R1 R2 C1 S1 C2 S2 _).
  destruct (kfac ell H x h Hh) as (P1 & P2 & _). destruct (kfac ell H y h Hh) as (P3 & P4 & _).
  unfold q.
  rewrite !(transverse_W ell H) in *. cbn [rad_in] in *. fold a b in P1, P2, P3, P4 |- *.
  assert (EA : forall t, a ^ 2 / hypot (a * cos t) (b * sin t) * (b ^ 2 / a ^ 2) = b ^ 2 / hypot (a * cos t) (b * sin t)).
  { intros t. pose proof (acbs_pos a b t Hb Hab). field. lra. }
  rewrite !EA in *.
  assert (Q1 : forall t, 0 < a ^ 2 * a ^ 2 / hypot (a * cos t) (b * sin t) ^ 3 + h).
  { intros t. pose proof (W3_inv t (a ^ 2 * a ^ 2)) as X. specialize (X ltac:(nra)).
    replace (a^2*a^2/a^3) with a in X by (field; lra).
    assert (b ^ 2 / a <= a). { apply Rmult_le_reg_r with a; [lra|]. replace (b^2/a*a) with (b^2) by (field; lra). nra. }
    lra. }
  assert (Q2 : forall t, 0 < b ^ 2 * b ^ 2 / hypot (a * cos t) (b * sin t) ^ 3 + h).
  { intros t. pose proof (W3_inv t (b ^ 2 * b ^ 2)) as X. specialize (X ltac:(nra)).
    replace (b^2*b^2/a^3) with (b^4/a^3) in X by (field; lra). lra. }
  destruct (pz_mono a b Hb Hab (a^2) (b^2) h Q1 Q2) with (t := x) (u := y) as [Y|[Y|Y]]; lra.
Qed.
Lemma geocentric_props h deg : - (b ^ 4 / a ^ 3) < h ->
  odd_fixing (quarter deg) (fun x => geodetic2geocentric x h ell deg) /\
  increasing_on (- quarter deg) (quarter deg) (fun x => geodetic2geocentric x h ell deg) /\
  odd_fixing (quarter deg) (fun x => geocentric2geodetic x h ell deg) /\
  increasing_on (- quarter deg) (quarter deg) (fun x => geocentric2geodetic x h ell deg).
Proof.
  intros Hh.
  assert (Hh' : - (b ^ 2 / a) < h).
  { assert (b ^ 4 / a ^ 3 <= b ^ 2 / a); [|lra].
    apply Rmult_le_reg_r with (a ^ 3); [apply pow_lt; lra|].
    replace (b^4/a^3*a^3) with (b^2*b^2) by (field; lra).
    replace (b^2/a*a^3) with (b^2*a^2) by (field; lra).
    apply Rmult_le_compat_l; nra. }
  repeat match goal with |- _ /\ _ => apply conj end.
  - apply (unit_odd deg (g1 h)).
    + intros. unfold g1. rewrite transverse_opp. apply atan_ktan_opp.
    + apply atan_ktan_PI2.
  - apply (unit_increasing deg (g1 h)), g1_incr, Hh'.
  - apply (unit_odd deg (g2 h)).
    + intros. unfold g2. rewrite transverse_opp. apply atan_ktan_opp.
    + apply atan_ktan_PI2.
  - apply (unit_increasing deg (g2 h)), g2_incr, Hh.
Qed.

(** *** series *)
Let cf1 := e ^ 2 / 2 + 5 * e ^ 4 / 24 + e ^ 6 / 12 + 13 * e ^ 8 / 360.
Let cf2 := 7 * e ^ 4 / 48 + 29 * e ^ 6 / 240 + 811 * e ^ 8 / 11520.
Let cf3 := 7 * e ^ 6 / 120 + 81 * e ^ 8 / 1120.
Let cf4 := 4279 * e ^ 8 / 161280.
Lemma e2_bound : 3 * a <= 4 * b -> 0 <= e ^ 2 <= 7 / 16.
Proof.
  intros Hf. split; [nra|]. rewrite He2.
  assert (9 / 16 <= b ^ 2 / a ^ 2).
  { apply Rmult_le_reg_r with (a^2); [nra|]. replace (b^2/a^2*a^2) with (b^2) by (field; lra). nra. }
  lra.
Qed.
Lemma n_bound : 3 * a <= 4 * b -> 0 <= n <= 1 / 7.
Proof.
  intros Hf. rewrite Hn. split.
  - apply Rmult_le_pos; [lra|]. left. apply Rinv_0_lt_compat. lra.
  - apply Rmult_le_reg_r with (a+b); [lra|]. replace ((a-b)/(a+b)*(a+b)) with (a-b) by (field; lra). lra.
Qed.
Lemma pow_bound x m k : 0 <= x <= m -> 0 <= x ^ k <= m ^ k.
Proof. intros Hx. split; [apply pow_le; lra|apply pow_incr; lra]. Qed.
Lemma series_pack deg c1 c2 c3 c4 (f : R -> R) (P : Prop) :
  (forall x, f x = deg_out deg (sine_series c1 c2 c3 c4 (rad_in deg x))) ->
  (P -> 2 * Rabs c1 + 4 * Rabs c2 + 6 * Rabs c3 + 8 * Rabs c4 < 1) ->
  odd_fixing (quarter deg) f /\ (P -> increasing_on (- quarter deg) (quarter deg) f).
Proof.
  intros Hf Hc. split.
  - pose proof (unit_odd deg (sine_series c1 c2 c3 c4)) as U. unfold odd_fixing in *.
    rewrite !Hf. destruct U as (U1 & U2 & U3 & U4).
    + intros. apply series_odd.
    + apply series_PI2.
    + repeat split; [|assumption..]. intros x Hx. rewrite !Hf. now apply U1.
  - intros HP x y Hx Hxy Hy. rewrite !Hf. apply deg_out_lt, series_incr; [now apply Hc|]. now apply rad_in_lt.
Qed.
Lemma conformal2_props deg :
  odd_fixing (quarter deg) (fun x => conformal2geodetic x ell deg) /\
  (3 * a <= 4 * b -> increasing_on (- quarter deg) (quarter deg) (fun x => conformal2geodetic x ell deg)).
Proof.
  apply (series_pack deg cf1 cf2 cf3 cf4).
  - reflexivity.
  - intros Hf. apply e2_bound in Hf. unfold cf1, cf2, cf3, cf4.
    replace (e ^ 4) with ((e^2)^2) by ring. replace (e ^ 6) with ((e^2)^3) by ring.
    replace (e ^ 8) with ((e^2)^4) by ring.
    pose proof (pow_bound _ _ 2 Hf). pose proof (pow_bound _ _ 3 Hf). pose proof (pow_bound _ _ 4 Hf).
    set (x := e ^ 2) in *. rewrite !Rabs_right by lra. lra.
Qed.
Lemma rectifying_props deg :
  odd_fixing (quarter deg) (fun x => geodetic2rectifying x ell deg) /\
  (3 * a <= 4 * b -> increasing_on (- quarter deg) (quarter deg) (fun x => geodetic2rectifying x ell deg)).
Proof.
  apply (series_pack deg (- (3 * n / 2 - 9 * n ^ 3 / 16)) (15 * n ^ 2 / 16 - 15 * n ^ 4 / 32)
    (- (35 * n ^ 3 / 48)) (315 * n ^ 4 / 512)).
  - intros x. unfold geodetic2rectifying, sine_series. fold n. f_equal. ring.
  - intros Hf. apply n_bound in Hf.
    pose proof (pow_bound _ _ 2 Hf). pose proof (pow_bound _ _ 3 Hf). pose proof (pow_bound _ _ 4 Hf).
    rewrite !Rabs_Ropp. rewrite !Rabs_right by nra. lra.
Qed.
Lemma rectifying2_props deg :
  odd_fixing (quarter deg) (fun x => rectifying2geodetic x ell deg) /\
  (3 * a <= 4 * b -> increasing_on (- quarter deg) (quarter deg) (fun x => rectifying2geodetic x ell deg)).
Proof.
  apply (series_pack deg (3 * n / 2 - 27 * n ^ 3 / 32) (21 * n ^ 2 / 16 - 55 * n ^ 4 / 32)
    (151 * n ^ 3 / 96) (1097 * n ^ 4 / 512)).
  - reflexivity.
  - intros Hf. apply n_bound in Hf.
    pose proof (pow_bound _ _ 2 Hf). pose proof (pow_bound _ _ 3 Hf). pose proof (pow_bound _ _ 4 Hf).
    rewrite !Rabs_right by nra. lra.
Qed.
Lemma authalic_props deg :
  odd_fixing (quarter deg) (fun x => geodetic2authalic x ell deg) /\
  (3 * a <= 4 * b -> increasing_on (- quarter deg) (quarter deg) (fun x => geodetic2authalic x ell deg)).
Proof.
  apply (series_pack deg (- (e ^ 2 / 3 + 31 * e ^ 4 / 180 + 59 * e ^ 6 / 560))
    (17 * e ^ 4 / 360 + 61 * e ^ 6 / 1260) (- (383 * e ^ 6 / 45360)) 0).
  - intros x. unfold geodetic2authalic, sine_series. fold e. f_equal. ring.
  - intros Hf. apply e2_bound in Hf.
    replace (e ^ 4) with ((e^2)^2) by ring. replace (e ^ 6) with ((e^2)^3) by ring.
    pose proof (pow_bound _ _ 2 Hf). pose proof (pow_bound _ _ 3 Hf).
    set (x := e ^ 2) in *. rewrite !Rabs_Ropp. rewrite !Rabs_right by lra. lra.
Qed.
Lemma authalic2_props deg :
  odd_fixing (quarter deg) (fun x => authalic2geodetic x ell deg) /\
  (3 * a <= 4 * b -> increasing_on (- quarter deg) (quarter deg) (fun x => authalic2geodetic x ell deg)).
Proof.
  apply (series_pack deg (e ^ 2 / 3 + 31 * e ^ 4 / 180 + 517 * e ^ 6 / 5040)
    (23 * e ^ 4 / 360 + 251 * e ^ 6 / 3780) (761 * e ^ 6 / 45360) 0).
  - intros x. unfold authalic2geodetic, sine_series. fold e. f_equal. ring.
  - intros Hf. apply e2_bound in Hf.
    replace (e ^ 4) with ((e^2)^2) by ring. replace (e ^ 6) with ((e^2)^3) by ring.
    pose proof (pow_bound _ _ 2 Hf). pose proof (pow_bound _ _ 3 Hf).
    set (x := e ^ 2) in *. rewrite !Rabs_right by lra. lra.
Qed.
Lemma geoc2geod_props r deg :
  odd_fixing (quarter deg) (fun x => geoc2geod x r ell deg) /\
  (b <= r /\ 4 * a <= 5 * b -> increasing_on (- quarter deg) (quarter deg) (fun x => geoc2geod x r ell deg)).
Proof.
  set (f := flattening (resolve_ellipsoid ell)).
  apply (series_pack deg (/ (r / a) * f) ((1 / (r / a) ^ 2 + 1 / (4 * (r / a))) * f ^ 2) 0 0).
  - intros x. unfold geoc2geod, sine_series. fold f. rewrite resolve_a. fold a. f_equal. unfold Rdiv. ring.
  - intros [Hr Hf]. assert (Ef : f = (a - b) / a) by apply (ell_f ell H).
    assert (0 <= f <= 1/5).
    { rewrite Ef. split; [apply Rmult_le_pos; [lra|left; apply Rinv_0_lt_compat; lra]|].
      apply Rmult_le_reg_r with a; [lra|]. replace ((a-b)/a*a) with (a-b) by (field; lra). lra. }
    assert (Hx : 0 < / (r / a) <= 5/4).
    { replace (/ (r/a)) with (a / r) by (field; lra). split; [apply Rdiv_lt_0_compat; lra|].
      apply Rmult_le_reg_r with r; [lra|]. replace (a/r*r) with a by (field; lra). lra. }
    replace (1 / (r/a)^2) with ((/ (r/a))^2) by (field; lra).
    replace (1 / (4 * (r/a))) with (/ 4 * / (r/a)) by (field; lra).
    set (x := / (r/a)) in *. clearbody f x.
    assert (0 <= f ^ 2 <= 1 / 25) by nra. assert (0 <= x ^ 2 <= 25/16) by nra.
    assert (0 <= x * f <= 1/4) by nra.
    assert (0 <= x ^ 2 + / 4 * x <= 15/8) by lra.
    assert (0 <= (x ^ 2 + / 4 * x) * f ^ 2 <= 15/8 * (1/25)).
    { split; [apply Rmult_le_pos; lra|]. apply Rmult_le_compat; lra. }
    rewrite Rabs_R0, !Rabs_right by lra. lra.
Qed.
End E.
