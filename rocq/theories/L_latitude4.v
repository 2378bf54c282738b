(** Accuracy of geoc2geod. *)
From Coq Require Import Lia Psatz.
From Coquelicot Require Import Coquelicot.
From Verif Require Import PyMath L_PyMath M_ellipsoid M_ecef M_rcurve M_latitude Spec L_ell L_aer L_rcurve L_rsphere L_latitude L_latitude2.
Open Scope R_scope.

Lemma D_atan x : is_derive atan x (/ (1 + x ^ 2)).
Proof. apply is_derive_Reals. apply derivable_pt_lim_atan. Qed.
Lemma atan_upper x : 0 <= x -> atan x <= x.
Proof.
  intros [Hx|<-]; [|rewrite atan_0; lra].
  destruct (mvt atan (fun x => / (1 + x^2)) 0 x Hx) as (c & E & Hc); [intros; apply D_atan|].
  rewrite atan_0 in E. assert (/ (1 + c^2) <= 1).
  { rewrite <- Rinv_1. apply Rinv_le_contravar; nra. }
  nra.
Qed.
Lemma atan_lower x : 0 <= x -> x - x ^ 3 <= atan x.
Proof.
  intros [Hx|<-]; [|rewrite atan_0; lra].
  destruct (mvt atan (fun x => / (1 + x^2)) 0 x Hx) as (c & E & Hc); [intros; apply D_atan|].
  rewrite atan_0 in E. assert (1 - x ^ 2 <= / (1 + c^2)).
  { apply Rmult_le_reg_r with (1 + c^2); [nra|]. rewrite Rinv_l by nra.
    assert (c ^ 2 <= x ^ 2) by (apply pow_incr; lra). nra. }
  assert (0 < x) by lra. nra.
Qed.

Lemma Bpoly c f : c * c = 1/2 -> 7/10 <= c <= 71/100 -> 0 <= f -> f <= 1/10 ->
  (f + f^2/2) * c * (1 + (c * f + (c/2 + 3/4) * f ^ 2)) <= c * f + (c/2 + 3/4) * f ^ 2.
Proof.
  intros Hc2 Hc F0 F1.
  assert (E : (f + f ^ 2 / 2) * c * (1 + (c * f + (c / 2 + 3 / 4) * f ^ 2))
    = c * f + (c/2 + c*c) * f^2 + (c * c + 3/4*c) * f^3 + (c * c/4 + 3/8 * c) * f^4) by field.
  rewrite E, Hc2.
  assert (0 <= f ^ 2) by nra.
  assert (f ^ 3 <= f^2/10) by nra. assert (f ^ 4 <= f^2/100) by nra.
  assert ((1/2 + 3/4*c) * f^3 <= (1/2 + 3/4 * (71/100)) * (f^2/10)).
  { apply Rmult_le_compat; try lra. apply pow_le; lra. }
  assert ((1/2/4 + 3/8*c) * f^4 <= (1/2/4 + 3/8 * (71/100)) * (f^2/100)).
  { apply Rmult_le_compat; try lra. apply pow_le; lra. }
  lra.
Qed.

Section E.
Variables (ell : option Ellipsoid) (H : ell_ok ell).
Let a := ell_a ell.
Let b := ell_b ell.
Let Hb : 0 < b. Proof. apply (ell_pos ell H). Qed.
Let Hab : b <= a. Proof. apply (ell_pos ell H). Qed.
Let Ha : 0 < a. Proof. lra. Qed.
Let f := (a - b) / a.
Let Hf0 : 0 <= f.
Proof. apply Rmult_le_pos; [lra|left; apply Rinv_0_lt_compat; lra]. Qed.
Let Hfb : b = a * (1 - f). Proof. unfold f. field. lra. Qed.
Hypothesis Hf : f <= 1/10.
Let m := (2 * f - f ^ 2) / (2 - 2 * f + f ^ 2).

(** the surface point at geocentric latitude psi: distance and geodetic latitude *)
Lemma surface_facts lat : 0 <= lat <= PI/2 ->
  let psi := geodetic2geocentric lat 0 ell false in
  let r := geocentric_radius lat ell false / a in
  0 < r /\ 0 <= psi <= PI / 2 /\
  (1 / r) ^ 2 = 1 + sin psi ^ 2 * (1 / (1 - f) ^ 2 - 1) /\
  lat = psi + atan (m * sin (2 * psi) / (1 - m * cos (2 * psi))).
Proof.
  intros Hl psi r. pose proof PI_RGT_0 as HPI.
  assert (Hl' : - PI/2 <= lat <= PI/2) by lra.
  assert (Hh : - (ell_b ell ^ 2 / ell_a ell) < 0).
  { fold a b. assert (0 < b ^ 2 / a) by (apply Rdiv_lt_0_compat; nra). lra. }
  destruct (geocentric_polar ell H lat 0 Hl' Hh) as (R & HR & HC & HS & HU). fold psi in HC, HS, HU.
  rewrite !Rplus_0_r in *. fold a b in HS.
  assert (HN := transverse_pos ell H lat false). set (N := transverse lat ell false) in *.
  set (q := b ^ 2 / a ^ 2) in *. assert (Eq : q = (1 - f) ^ 2) by (unfold q; rewrite Hfb; field; lra).
  assert (Hq : 0 < q) by (rewrite Eq; nra).
  assert (HgR : geocentric_radius lat ell false = R).
  { rewrite (geocentric_radius_norm ell H lat 0 false). unfold vnorm, geodetic2ecef, vdot.
    rewrite resolve_a, resolve_b. fold a b. cbn [rad_in].
    replace (a ^ 2 / hypot (a * cos lat) (b * sin lat)) with N by apply (transverse_W ell H lat false).
    rewrite cos_0, sin_0. apply sqrt_uniq; [lra|].
    transitivity ((R * cos psi)^2 + (R * sin psi)^2).
    - transitivity (R * R * (sin psi * sin psi + cos psi * cos psi)); [rewrite sc1; ring|ring].
    - rewrite HC, HS. unfold q. field. lra. }
  assert (Hr : 0 < r) by (unfold r; rewrite HgR; apply Rdiv_lt_0_compat; lra).
  assert (Sl : 0 <= sin lat) by (apply sin_ge_0; lra).
  assert (Cl : 0 <= cos lat) by (apply cos_ge_0; lra).
  assert (Sp : 0 <= sin psi). { apply Rmult_le_reg_l with R; [assumption|]. rewrite HS, Rmult_0_r. apply Rmult_le_pos; [|assumption]. nra. }
  assert (Hpsi : 0 <= psi).
  { apply Rnot_lt_le. intros Hlt. assert (0 < sin (- psi)) by (apply sin_gt_0; lra). rewrite sin_neg in *. lra. }
  assert (Hon : R ^ 2 * (cos psi ^ 2 + sin psi ^ 2 / q) = a ^ 2).
  { transitivity ((R * cos psi) ^ 2 + (R * sin psi) ^ 2 / q); [field; lra|].
    rewrite HC, HS. transitivity (N ^ 2 * (cos lat ^ 2 + q * sin lat ^ 2)); [field; lra|].
    unfold N. rewrite (transverse_W ell H). cbn [rad_in]. fold a b.
    pose proof (acbs_pos a b lat Hb Hab) as HW. pose proof (W_sq a b lat) as HW2. set (W := hypot _ _) in *.
    transitivity (a ^ 2 * (W ^ 2 / W ^ 2)); [|field; lra]. rewrite HW2 at 1. unfold q. field. lra. }
  split; [assumption|]. split; [lra|]. split.
  - unfold r. rewrite HgR. transitivity (a ^ 2 / R ^ 2); [field; lra|]. rewrite <- Hon, Eq.
    pose proof (sin_pow2 psi). rewrite H0 at 2. field [H0]. split; nra.
  - (* lat - psi *)
    assert (Hm0 : 0 <= m). { unfold m. apply Rmult_le_pos; [nra|left; apply Rinv_0_lt_compat; nra]. }
    assert (Hm1 : m < 1). { unfold m. apply Rmult_lt_reg_r with (2 - 2*f+f^2); [nra|].
      replace ((2*f-f^2)/(2-2*f+f^2)*(2-2*f+f^2)) with (2*f-f^2) by (field; nra). nra. }
    assert (Hden : 0 < 1 - m * cos (2 * psi)) by (pose proof (COS_bound (2*psi)); nra).
    assert (Hcd : 0 < cos (lat - psi)).
    { rewrite cos_minus. apply Rmult_lt_reg_l with R; [assumption|].
      replace (R * (cos lat * cos psi + sin lat * sin psi)) with (cos lat * (R * cos psi) + sin lat * (R * sin psi)) by ring.
      rewrite HC, HS. replace (cos lat * (N * cos lat) + sin lat * (N * q * sin lat)) with (N * (cos lat * cos lat + q * (sin lat * sin lat))) by ring.
      rewrite Rmult_0_r. apply Rmult_lt_0_compat; [assumption|]. pose proof (sc1 lat). 
      destruct (Rle_dec (sin lat * sin lat) (1/2)); [nra|]. nra. }
    assert (Hd : - PI/2 < lat - psi < PI/2).
    { split.
      - apply Rnot_le_lt. intros X. assert (cos (lat - psi) <= 0); [|lra].
        rewrite <- cos_neg. apply cos_le_0; lra.
      - apply Rnot_le_lt. intros X. assert (cos (lat - psi) <= 0); [|lra]. apply cos_le_0; lra. }
    replace (m * sin (2 * psi) / (1 - m * cos (2 * psi))) with (tan (lat - psi)).
    { rewrite atan_tan_id by assumption. ring. }
    unfold tan. apply Rmult_eq_reg_r with (cos (lat - psi) * (1 - m * cos (2 * psi))); [|apply Rgt_not_eq; nra].
    transitivity (sin (lat - psi) * (1 - m * cos (2 * psi))); [field; lra|].
    transitivity (m * sin (2 * psi) * cos (lat - psi)); [|field; lra].
    (* multiply out with sin lat = R sin psi / (N q), cos lat = R cos psi / N *)
    assert (E1 : sin lat = R / N * (sin psi / q)).
    { apply Rmult_eq_reg_l with (N * q); [|nra]. rewrite <- HS. field. lra. }
    assert (E2 : cos lat = R / N * cos psi).
    { apply Rmult_eq_reg_l with N; [|lra]. rewrite <- HC. field. lra. }
    rewrite sin_minus, cos_minus, E1, E2, sin_2a, cos_2a.
    assert (Em : m = (1 - q) / (1 + q)). { unfold m. rewrite Eq. field. nra. }
    rewrite Em. pose proof (sin_sq psi) as Hsp.
    apply Rmult_eq_reg_r with (N / R * q * (1 + q)).
    2:{ apply Rgt_not_eq. assert (0 < N / R) by (apply Rdiv_lt_0_compat; lra).
      apply Rmult_lt_0_compat; [apply Rmult_lt_0_compat; assumption|lra]. }
    transitivity ((sin psi * cos psi - q * cos psi * sin psi) * ((1 + q) - (1 - q) * (cos psi * cos psi - sin psi * sin psi))).
    { field. lra. }
    transitivity ((1 - q) * (2 * sin psi * cos psi) * (q * (cos psi * cos psi) + sin psi * sin psi)).
    2:{ field. lra. }
    rewrite !Hsp. ring.
Qed.

Lemma m_bounds : 0 <= m /\ f <= m <= f + f ^ 2 / 2 /\ m <= 21/200.
Proof.
  assert (D : 0 < 2 - 2*f + f^2) by nra.
  assert (E : m * (2 - 2*f+f^2) = 2*f - f^2) by (unfold m; field; lra).
  assert (0 <= m). { unfold m. apply Rmult_le_pos; [nra|left; now apply Rinv_0_lt_compat]. }
  assert (f <= m).
  { apply Rmult_le_reg_r with (2 - 2*f+f^2); [assumption|]. rewrite E. nra. }
  assert (m <= f + f^2/2).
  { apply Rmult_le_reg_r with (2 - 2*f+f^2); [assumption|]. rewrite E.
    assert (0 <= f ^ 3) by (apply pow_le; lra). assert (0 <= f ^ 4) by (apply pow_le; lra). nra. }
  repeat split; try assumption. nra.
Qed.

(** first-order accuracy, everywhere *)
Lemma first_order_pos lat : 0 <= lat <= PI/2 ->
  Rabs (geoc2geod (geodetic2geocentric lat 0 ell false) (geocentric_radius lat ell false) ell false - lat)
  <= 5 * f ^ 2.
Proof.
  intros Hl. destruct (surface_facts lat Hl) as (Hr & Hp & Er & El). pose proof PI_RGT_0.
  unfold geoc2geod. cbn [rad_in deg_out]. rewrite resolve_a. fold a. rewrite (ell_f ell H). fold a b. fold f.
  set (psi := geodetic2geocentric lat 0 ell false) in *. set (r := geocentric_radius lat ell false / a) in *.
  rewrite El. destruct m_bounds as (M0 & M1 & M2).
  pose proof (SIN_bound (2*psi)) as S2. pose proof (COS_bound (2*psi)) as C2. pose proof (SIN_bound (4*psi)) as S4.
  assert (S2' : 0 <= sin (2*psi)) by (apply sin_ge_0; lra).
  set (s2 := sin (2*psi)) in *. set (c2 := cos (2*psi)) in *. set (s4 := sin (4*psi)) in *.
  assert (Hi : 0 < 1/r) by (apply Rdiv_lt_0_compat; lra).
  assert (F2 : 0 <= f ^ 2) by nra.
  assert (Hi2 : 1 <= 1/r <= 1 + 10/9 * f).
  { set (i := 1/r) in *. assert (0 <= sin psi ^ 2 <= 1) by (pose proof (sc1 psi); nra).
    assert (X : 1 / (1-f)^2 = 1 + (2*f - f^2)/(1-f)^2) by (field; lra).
    assert (Y : (1 - f) ^ 2 * (1 + 10/9*f)^2 >= 1).
    { replace ((1 - f) ^ 2 * (1 + 10/9*f)^2) with (((1-f)*(1+10/9*f))^2) by ring.
      assert (1 <= (1-f)*(1+10/9*f)) by nra. nra. }
    assert (X' : 1 / (1-f)^2 <= (1 + 10/9*f)^2).
    { apply Rmult_le_reg_r with ((1-f)^2); [nra|]. replace (1/(1-f)^2*(1-f)^2) with 1 by (field; lra). lra. }
    assert (0 <= (2*f - f^2)/(1-f)^2) by (apply Rmult_le_pos; [nra|left; apply Rinv_0_lt_compat; nra]).
    split; apply Rnot_lt_le; intros Z; nra. }
  assert (Ed : 0 < 1 - m * c2) by nra.
  set (x := m * s2 / (1 - m * c2)).
  assert (Ex : x * (1 - m * c2) = m * s2) by (unfold x; field; lra).
  assert (X0 : 0 <= x) by (unfold x; apply Rmult_le_pos; [nra|left; now apply Rinv_0_lt_compat]).
  assert (Dd : 179/200 <= 1 - m * c2) by nra.
  assert (M3 : m <= 21/20 * f) by nra.
  assert (X1 : x <= 6/5 * f). { apply Rmult_le_reg_r with (1 - m * c2); [assumption|]. rewrite Ex. nra. }
  pose proof (atan_upper x X0) as A1. pose proof (atan_lower x X0) as A2.
  assert (X3 : x ^ 3 <= 1/5 * f ^ 2).
  { assert (x ^ 2 <= (6/5 * f)^2) by (apply pow_incr; lra).
    replace (x ^ 3) with (x * x ^ 2) by ring. nra. }
  assert (Xf : Rabs (x - f * s2) <= 7/4 * f ^ 2).
  { assert (E : x - f * s2 = ((m - f) * s2 + f * s2 * m * c2) / (1 - m * c2)) by (unfold x; field; lra).
    rewrite E. unfold Rdiv. rewrite Rabs_mult. rewrite (Rabs_right (/ _)) by (left; now apply Rinv_0_lt_compat).
    apply Rmult_le_reg_r with (1 - m * c2); [assumption|]. rewrite Rmult_assoc, Rinv_l by lra.
    assert (Q1 : 0 <= (m - f) * s2 <= f^2/2) by nra.
    assert (Q2 : 0 <= f * s2 * m <= 21/20 * f^2).
    { split; [apply Rmult_le_pos; [apply Rmult_le_pos; assumption|assumption]|]. assert (K1 : f * s2 <= f) by nra. assert (K2 : 0 <= f * s2) by nra.
      apply Rle_trans with (f * m); [apply Rmult_le_compat_r; lra|nra]. }
    assert (Q3 : - (21/20 * f^2) <= f * s2 * m * c2 <= 21/20*f^2).
    { set (k := f * s2 * m) in *. split; nra. }
    rewrite Rmult_1_r. apply Rabs_le. nra. }
  apply Rabs_le_between in Xf. apply Rabs_le.
  replace (s2 / r * f) with (f * s2 * (1/r)) by (field; lra).
  replace (1 / r ^ 2 + 1 / (4 * r)) with ((1/r)^2 + 1/4 * (1/r)) by (field; lra).
  set (i := 1/r) in *.
  assert (Q1 : 0 <= f * s2 * i - f * s2 <= 10/9 * f ^ 2).
  { replace (f * s2 * i - f * s2) with (f * s2 * (i - 1)) by ring.
    assert (0 <= f * s2 <= f) by nra. split; [apply Rmult_le_pos; lra|]. nra. }
  assert (Q2 : 0 <= i ^ 2 + 1/4*i <= 14/9).
  { assert (i <= 10/9) by lra. nra. }
  assert (Q3 : - (14/9 * f^2) <= (i ^ 2 + 1/4*i) * s4 * f^2 <= 14/9 * f^2).
  { assert (- (14/9) <= (i ^ 2 + 1/4*i) * s4 <= 14/9) by nra. nra. }
  lra.
Qed.
Lemma geoc2geod_opp x r : geoc2geod (- x) r ell false = - geoc2geod x r ell false.
Proof.
  unfold geoc2geod. cbn [rad_in deg_out]. rewrite !Ropp_mult_distr_r_reverse, !sin_neg. unfold Rdiv. ring.
Qed.
Lemma geocentric_radius_opp x : geocentric_radius (- x) ell false = geocentric_radius x ell false.
Proof. unfold geocentric_radius. cbn [rad_in]. rewrite cos_neg, sin_neg. f_equal. f_equal; ring. Qed.
Lemma g2gc_opp x : geodetic2geocentric (- x) 0 ell false = - geodetic2geocentric x 0 ell false.
Proof.
  unfold geodetic2geocentric. cbn [rad_in deg_out]. rewrite (transverse_opp ell). apply atan_ktan_opp.
Qed.
Lemma first_order lat : - PI/2 <= lat <= PI/2 ->
  Rabs (geoc2geod (geodetic2geocentric lat 0 ell false) (geocentric_radius lat ell false) ell false - lat)
  <= 5 * f ^ 2.
Proof.
  intros Hl. destruct (Rle_dec 0 lat) as [P|P]; [apply first_order_pos; lra|].
  pose proof (first_order_pos (- lat) ltac:(lra)) as E.
  rewrite g2gc_opp, geocentric_radius_opp, geoc2geod_opp in E.
  rewrite <- Rabs_Ropp. replace (- (geoc2geod (geodetic2geocentric lat 0 ell false) (geocentric_radius lat ell false) ell false - lat))
    with (- geoc2geod (geodetic2geocentric lat 0 ell false) (geocentric_radius lat ell false) ell false - - lat) by ring.
  exact E.
Qed.

(** at geocentric latitude pi/8 the second-order term is wrong *)
Lemma not_second_order lat : 0 <= lat <= PI/2 -> geodetic2geocentric lat 0 ell false = PI / 8 ->
  f ^ 2 / 4 <= geoc2geod (PI/8) (geocentric_radius lat ell false) ell false - lat.
Proof.
  intros Hl Hpsi. destruct (surface_facts lat Hl) as (Hr & Hp & Er & El). pose proof PI_RGT_0.
  unfold geoc2geod. cbn [rad_in deg_out]. rewrite resolve_a. fold a. rewrite (ell_f ell H). fold a b. fold f.
  rewrite Hpsi in *. set (r := geocentric_radius lat ell false / a) in *.
  rewrite El. destruct m_bounds as (M0 & M1 & M2).
  replace (2 * (PI/8)) with (PI/4) in * by field. replace (4 * (PI/8)) with (PI/2) by field.
  assert (Es : sin (PI/8) ^ 2 = (1 - cos (PI/4)) / 2).
  { replace (PI/4) with (2 * (PI/8)) by field. rewrite cos_2a_sin. field. }
  rewrite Es in Er. rewrite sin_PI2.
  assert (Ec : sin (PI/4) = cos (PI/4)) by (rewrite sin_PI4, cos_PI4; reflexivity).
  rewrite Ec. set (c := cos (PI/4)) in *.
  assert (Hc2 : c * c = 1/2). { pose proof (sc1 (PI/4)) as X. rewrite Ec in X. fold c in X. lra. }
  assert (Hc0 : 0 < c) by (apply cos_gt_0; lra).
  assert (Hc : 7/10 <= c <= 71/100) by (split; apply Rnot_lt_le; intros Z; nra).
  assert (Hi : 0 < 1/r) by (apply Rdiv_lt_0_compat; lra).
  replace (c / r * f) with (f * c * (1/r)) by (field; lra).
  replace (1 / r ^ 2 + 1 / (4 * r)) with ((1/r)^2 + 1/4 * (1/r)) by (field; lra).
  set (i := 1/r) in *. set (s := (1 - c)/2) in *. assert (Hs : 0 < s <= 3/20) by (unfold s; lra).
  assert (I1 : 1 + f * s <= i).
  { assert (1 + 2*f + 3*f^2 <= 1 / (1-f)^2).
    { apply Rmult_le_reg_r with ((1-f)^2); [nra|]. replace (1/(1-f)^2*(1-f)^2) with 1 by (field; lra).
      assert (0 <= f ^ 3) by (apply pow_le; lra). assert (0 <= f^4) by (apply pow_le; lra). nra. }
    assert ((1 + f*s)^2 <= i ^ 2).
    { rewrite Er. assert (0 <= f^2) by nra. assert (s * f^2 <= f^2) by nra. nra. }
    assert (0 <= f * s) by nra. apply Rnot_lt_le. intros Z. nra. }
  assert (I0 : 1 <= i) by nra.
  set (x := m * c / (1 - m * c)).
  assert (Ed : 0 < 1 - m * c) by nra.
  assert (Ex : x * (1 - m * c) = m * c) by (unfold x; field; lra).
  assert (X0 : 0 <= x) by (unfold x; apply Rmult_le_pos; [nra|left; now apply Rinv_0_lt_compat]).
  pose proof (atan_upper x X0) as A1.
  assert (F2 : 0 <= f ^ 2) by nra. assert (F3 : 0 <= f ^ 3 <= f^2/10) by (split; [apply pow_le; lra|nra]).
  assert (X1 : x <= c * f + (c/2 + 3/4) * f ^ 2).
  { apply Rmult_le_reg_r with (1 - m * c); [assumption|]. rewrite Ex.
    set (B := c * f + (c/2 + 3/4) * f ^ 2).
    assert (Bp : 0 <= B) by (unfold B; nra).
    assert (m * c * (1 + B) <= B); [|lra].
    apply Rle_trans with ((f + f^2/2) * c * (1 + B)).
    { apply Rmult_le_compat_r; [lra|]. apply Rmult_le_compat_r; lra. }
    apply Bpoly; assumption || lra. }
  assert (f * c * (1 + f * s) <= f * c * i).
  { apply Rmult_le_compat_l; nra. }
  assert (5/4 * f^2 <= (i ^ 2 + 1/4*i) * 1 * f ^ 2).
  { apply Rmult_le_compat_r; nra. }
  fold x. unfold s in *. nra.
Qed.
End E.
