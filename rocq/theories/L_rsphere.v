(** Lemmas on auxiliary sphere radii. *)
From Coq Require Import Lia Psatz.
From Coquelicot Require Import Coquelicot.
From Verif Require Import PyMath L_PyMath M_ellipsoid M_ecef M_rcurve M_rsphere Spec L_ell L_frames L_aer L_rcurve.
Open Scope R_scope.

Lemma ecc_E ell : ell_ok ell ->
  eccentricity (resolve_ellipsoid ell) = sqrt (ell_a ell ^ 2 - ell_b ell ^ 2) / ell_a ell.
Proof.
  intros H. destruct (ell_pos ell H) as [Hb Hab].
  pose proof (ell_e2 ell H) as E. pose proof (ell_e_nonneg ell H) as P.
  set (e := eccentricity _) in *. set (a := ell_a ell) in *. set (b := ell_b ell) in *.
  assert (0 <= a ^ 2 - b ^ 2) by nra.
  replace (a^2-b^2) with ((e * a) * (e * a)).
  - rewrite sqrt_square by nra. field. lra.
  - transitivity (e^2 * a^2); [ring|]. rewrite E. field. lra.
Qed.

(** atanh bounds by the mean value theorem *)
Lemma atanh_bounds e : 0 < e < 1 -> 2 * e <= ln ((1 + e) / (1 - e)) <= 2 * e / (1 - e ^ 2).
Proof.
  intros He.
  destruct (MVT_gen (fun x => ln ((1 + x) / (1 - x))) 0 e (fun x => 2 / (1 - x ^ 2))) as (c & Hc & E).
  - intros x Hx. rewrite Rmin_left, Rmax_right in Hx by lra.
    assert (0 < (1 + x) / (1 - x)) by (apply Rdiv_lt_0_compat; lra).
    auto_derive.
    + repeat split; [lra | assumption].
    + field. repeat split; try lra. nra.
  - intros x Hx. rewrite Rmin_left, Rmax_right in Hx by lra.
    assert (0 < (1 + x) / (1 - x)) by (apply Rdiv_lt_0_compat; lra).
    apply derivable_continuous_pt. apply ex_derive_Reals_0. auto_derive. repeat split; [lra|assumption].
  - rewrite Rmin_left, Rmax_right in Hc by lra.
    replace ((1 + 0) / (1 - 0)) with 1 in E by lra. rewrite ln_1, !Rminus_0_r in E.
    rewrite E. assert (0 < 1 - e ^ 2) by nra. assert (0 < 1 - c ^ 2) by nra. split.
    + apply Rmult_le_reg_r with (1 - c^2); [lra|]. replace (2/(1-c^2)*e*(1-c^2)) with (2*e) by (field; lra).
      nra.
    + replace (2 / (1-c^2) * e) with (2 * e * / (1 - c^2)) by (field; lra). unfold Rdiv.
      apply Rmult_le_compat_l; [lra|]. apply Rinv_le_contravar; nra.
Qed.

Lemma E_lt_a E a b : 0 < b -> 0 < a -> 0 < E -> E * E = a ^ 2 - b ^ 2 -> E < a.
Proof.
  intros Hb Ha HE H. apply Rnot_le_lt; intros K.
  assert (a * a <= E * E) by (apply Rmult_le_compat; lra).
  assert (0 < b * b) by (apply Rmult_lt_0_compat; lra). nra.
Qed.

Section S.
Variables (ell : option Ellipsoid) (H : ell_ok ell).
Let a := ell_a ell.
Let b := ell_b ell.
Let Hb : 0 < b. Proof. apply (ell_pos ell H). Qed.
Let Hab : b <= a. Proof. apply (ell_pos ell H). Qed.
Let Ha : 0 < a. Proof. lra. Qed.

Lemma ecc_lt1 : eccentricity (resolve_ellipsoid ell) < 1.
Proof.
  pose proof (ell_e2 ell H) as E. pose proof (ell_e_nonneg ell H). fold a b in E.
  assert (0 < b^2/a^2) by (apply Rdiv_lt_0_compat; nra). nra.
Qed.
Lemma ecc_pos_iff : 0 < eccentricity (resolve_ellipsoid ell) <-> b < a.
Proof.
  pose proof (ell_e2 ell H) as E. pose proof (ell_e_nonneg ell H). fold a b in E. split; intros K.
  - destruct (Req_dec b a) as [Eq|]; [|lra]. exfalso. rewrite Eq in E.
    replace (1 - a^2/a^2) with 0 in E by (field; lra). nra.
  - assert (b^2/a^2 < 1).
    { apply Rmult_lt_reg_r with (a^2); [nra|]. replace (b^2/a^2*a^2) with (b^2) by (field; lra). nra. }
    nra.
Qed.

(** Textbook surface of revolution: r = a cos t, z = b sin t. *)
Lemma authalic_sq_formula : b < a ->
  let E := sqrt (a ^ 2 - b ^ 2) in
  authalic ell ^ 2 = a ^ 2 / 2 + a * b ^ 2 / (2 * E) * ln ((a + E) / b).
Proof.
  intros Hlt E. unfold authalic. rewrite resolve_a. fold a.
  destruct (Rlt_dec 0 (eccentricity (resolve_ellipsoid ell))) as [He|He].
  2:{ exfalso. apply He, ecc_pos_iff, Hlt. }
  pose proof ecc_lt1 as He1. pose proof (atanh_bounds _ (conj He He1)) as HB.
  set (e := eccentricity _) in *.
  assert (Ee : e = E / a) by (apply (ecc_E ell H)).
  assert (HE : 0 < E) by (apply sqrt_lt_R0; nra).
  assert (HE2 : E * E = a^2 - b^2) by (apply sqrt_sqrt; nra).
  rewrite pow2_sqrt'.
  2:{ assert (0 <= (1 - e ^ 2) / (2 * e) * ln ((1 + e) / (1 - e))).
      { apply Rmult_le_pos; [|lra]. apply Rle_mult_inv_pos; nra. }
      nra. }
  replace ((1 + e) / (1 - e)) with (((a + E) / b) * ((a + E) / b)).
  2:{ rewrite Ee. pose proof (E_lt_a E a b Hb Ha HE HE2) as HEa.
      transitivity ((a + E) * (a + E) / (a^2 - E * E)).
      - rewrite HE2. replace (a^2-(a^2-b^2)) with (b*b) by ring. field. lra.
      - field. repeat split; try lra. assert (E * E < a * a) by nra. lra. }
  assert (0 < (a + E) / b) by (apply Rdiv_lt_0_compat; lra).
  rewrite ln_mult by assumption.
  rewrite Ee. set (L := ln _). 
  replace (1 - (E/a)^2) with (b^2/a^2).
  2:{ replace (b^2) with (a^2 - E*E) by lra. field. lra. }
  field. lra.
Qed.

Lemma area_integrand_cont t : continuous (fun t => 2 * PI * (a * cos t) * sqrt ((a * sin t) ^ 2 + (b * cos t) ^ 2)) t.
Proof.
  assert (HP : 0 < (a * sin t) ^ 2 + (b * cos t) ^ 2).
  { pose proof (sc1 t). destruct (Req_dec (sin t) 0) as [E|E].
    - rewrite E in *. assert (cos t * cos t = 1) by lra.
      replace ((a*0)^2 + (b*cos t)^2) with (b^2*(cos t * cos t)) by ring. rewrite H1. nra.
    - assert (0 < a^2 * (sin t * sin t)) by (apply Rmult_lt_0_compat; nra).
      assert (0 <= (b * cos t)^2) by apply sq_nonneg. nra. }
  apply (ex_derive_continuous (fun t => 2 * PI * (a * cos t) * sqrt ((a * sin t) ^ 2 + (b * cos t) ^ 2))).
  auto_derive. 
  replace (a * sin t * (a * sin t * 1) + b * cos t * (b * cos t * 1)) with ((a * sin t) ^ 2 + (b * cos t) ^ 2) by ring.
  assumption.
Qed.

Lemma spheroid_area_oblate : b < a ->
  is_RInt (fun t => 2 * PI * (a * cos t) * sqrt ((a * sin t) ^ 2 + (b * cos t) ^ 2)) (- PI / 2) (PI / 2)
    (4 * PI * authalic ell ^ 2).
Proof.
  intros Hlt. rewrite authalic_sq_formula by assumption. cbv zeta.
  set (E := sqrt (a^2-b^2)).
  assert (HE : 0 < E) by (apply sqrt_lt_R0; nra).
  assert (HE2 : E * E = a^2 - b^2) by (apply sqrt_sqrt; nra).
  set (G := fun s => s / 2 * sqrt (b^2 + (E*s)^2) + b^2 / (2 * E) * ln ((E * s + sqrt (b^2 + (E*s)^2)) / b)).
  assert (HG : forall s, is_derive G s (sqrt (b^2 + (E*s)^2))).
  { intros s. unfold G.
    assert (HP : 0 < b^2 + (E*s)^2) by (pose proof (sq_nonneg (E*s)); nra).
    set (Q := sqrt (b^2 + (E*s)^2)).
    assert (HQ : 0 < Q) by (apply sqrt_lt_R0; assumption).
    assert (HQ2 : Q * Q = b^2 + (E*s)^2) by (apply sqrt_sqrt; lra).
    assert (HL : 0 < (E * s + Q)) by nra.
    auto_derive.
    - replace (b * (b * 1) + E * s * (E * s * 1)) with (b^2 + (E*s)^2) by ring. fold Q.
      repeat split; try assumption; try lra. apply Rdiv_lt_0_compat; lra.
    - replace (b * (b * 1) + E * s * (E * s * 1)) with (b^2 + (E*s)^2) by ring. fold Q.
      apply Rmult_eq_reg_r with (2 * Q); [|lra].
      transitivity (Q * Q + (E*s)^2 + b^2); [field; lra|]. 
      transitivity (2 * (Q*Q)); [rewrite HQ2; ring|ring]. }
  assert (Hint : is_RInt (fun t => 2 * PI * (a * cos t) * sqrt ((a * sin t) ^ 2 + (b * cos t) ^ 2)) (- PI / 2) (PI / 2)
    (minus (2 * PI * a * G (sin (PI/2))) (2 * PI * a * G (sin (- PI/2))))).
  { apply (is_RInt_derive (fun t => 2 * PI * a * G (sin t))).
    - intros t _.
      replace (2 * PI * (a * cos t) * sqrt ((a * sin t) ^ 2 + (b * cos t) ^ 2))
        with (2 * PI * a * (cos t * sqrt (b^2 + (E * sin t)^2))).
      + apply is_derive_scal. apply (is_derive_comp G sin).
        * apply HG.
        * apply D_sin.
      + replace (b^2 + (E * sin t)^2) with ((a * sin t)^2 + (b * cos t)^2); [ring|].
        replace ((E * sin t)^2) with (E * E * (sin t * sin t)) by ring. rewrite HE2.
        pose proof (sc1 t). replace ((b * cos t)^2) with (b^2 * (1 - sin t * sin t)); [ring|].
        rewrite <- H0. ring.
    - intros t _. apply area_integrand_cont. }
  evar_last; [exact Hint|].
  replace (-PI/2) with (-(PI/2)) by lra. rewrite sin_neg, sin_PI2.
  unfold minus, plus, opp; cbn. unfold G.
  replace (b ^ 2 + (E * - (1)) ^ 2) with (a^2) by (rewrite Rpow_mult_distr; replace (E^2) with (E*E) by ring; rewrite HE2; ring).
  replace (b ^ 2 + (E * 1) ^ 2) with (a^2) by (rewrite Rpow_mult_distr; replace (E^2) with (E*E) by ring; rewrite HE2; ring).
  rewrite sqrt_pow2' by lra.
  pose proof (E_lt_a E a b Hb Ha HE HE2) as HEa.
  assert (HLn : ln ((E * - (1) + a) / b) = - ln ((a + E) / b)).
  { rewrite <- ln_Rinv by (apply Rdiv_lt_0_compat; lra). f_equal.
    apply Rmult_eq_reg_r with ((a + E) * b); [|apply Rmult_integral_contrapositive_currified; lra].
    transitivity (b^2); [|field; lra].
    replace (b^2) with (a^2 - E*E) by lra. field. lra. }
  rewrite HLn. replace ((E * 1 + a) / b) with ((a + E)/b) by (field; lra). field. lra.
Qed.
Lemma spheroid_area_sphere : b = a ->
  is_RInt (fun t => 2 * PI * (a * cos t) * sqrt ((a * sin t) ^ 2 + (b * cos t) ^ 2)) (- PI / 2) (PI / 2)
    (4 * PI * authalic ell ^ 2).
Proof.
  intros Eq. assert (Hau : authalic ell = a).
  { unfold authalic. rewrite resolve_a. fold a.
    destruct (Rlt_dec 0 (eccentricity (resolve_ellipsoid ell))) as [He|He]; [|reflexivity].
    apply ecc_pos_iff in He. lra. }
  rewrite Hau.
  evar_last.
  - apply (is_RInt_derive (fun t => 2 * PI * a * a * sin t)).
    + intros t _.
      replace (2 * PI * (a * cos t) * sqrt ((a * sin t) ^ 2 + (b * cos t) ^ 2)) with (2 * PI * a * a * cos t).
      * apply is_derive_scal, D_sin.
      * rewrite Eq. replace ((a * sin t)^2 + (a * cos t)^2) with (a^2 * (sin t * sin t + cos t * cos t)) by ring.
        rewrite sc1, Rmult_1_r, sqrt_pow2' by lra. ring.
    + intros t _. apply area_integrand_cont.
  - replace (-PI/2) with (-(PI/2)) by lra. rewrite sin_neg, sin_PI2.
    unfold minus, plus, opp; cbn. ring.
Qed.

Lemma authalic_nonneg : 0 <= authalic ell.
Proof.
  unfold authalic. destruct (Rlt_dec 0 _); [apply sqrt_pos|]. rewrite resolve_a. fold a. lra.
Qed.
Lemma authalic_bounds : b <= authalic ell <= a.
Proof.
  unfold authalic. rewrite resolve_a. fold a.
  destruct (Rlt_dec 0 (eccentricity (resolve_ellipsoid ell))) as [He|He]; [|lra].
  pose proof ecc_lt1 as He1. pose proof (atanh_bounds _ (conj He He1)) as [B1 B2].
  pose proof (ell_e2 ell H) as Ee. fold a b in Ee.
  set (e := eccentricity _) in *. set (L := ln _) in *.
  assert (Eb : b^2 = a^2 * (1 - e^2)) by (rewrite Ee; field; lra).
  assert (K : 1 - e^2 <= (1 - e^2) / (2*e) * L <= 1).
  { assert (0 < (1-e^2)/(2*e)) by (apply Rdiv_lt_0_compat; nra). split.
    - apply Rle_trans with ((1-e^2)/(2*e) * (2*e)); [right; field; lra|]. apply Rmult_le_compat_l; lra.
    - apply Rle_trans with ((1-e^2)/(2*e) * (2*e/(1-e^2))); [apply Rmult_le_compat_l; lra|].
      right; field. split; nra. }
  assert (0 < e^2 < 1) by nra.
  split.
  - apply Rle_trans with (sqrt (b^2)); [rewrite sqrt_pow2'; lra|]. apply sqrt_le_1_alt. nra.
  - apply Rle_trans with (sqrt (a^2)); [|rewrite sqrt_pow2'; lra]. apply sqrt_le_1_alt. nra.
Qed.

(** equal volume *)
Lemma eqavol_form : let f := (a - b) / a in
  eqavol ell = a * (1 - f / 3 - f ^ 2 / 9) /\ 0 <= f < 1 /\ b = a * (1 - f).
Proof.
  intros f. unfold eqavol. rewrite resolve_a, (ell_f ell H). fold a b f. split; [reflexivity|].
  split; [split|].
  - apply Rle_mult_inv_pos; lra.
  - unfold f. apply Rmult_lt_reg_r with a; [lra|]. replace ((a-b)/a*a) with (a-b) by (field; lra). lra.
  - unfold f. field. lra.
Qed.
Lemma eqavol_volume : let f := (a - b) / a in
  0 <= eqavol ell ^ 3 - a ^ 2 * b <= 5 / 27 * f ^ 3 * a ^ 3.
Proof.
  intros f. destruct eqavol_form as (E & Hf & Eb). fold f in E, Hf, Eb. rewrite E.
  replace (a^2*b) with (a^3*(1-f)) by (rewrite Eb at 1; ring).
  pose (s := f / 3). assert (Hs : 0 <= s < 1/3) by (unfold s; lra).
  replace ((a * (1 - f / 3 - f ^ 2 / 9)) ^ 3 - a ^ 3 * (1 - f)) with (a^3 * (s^3 * (5 - 3 * s^2 - s^3)))
    by (unfold s; field).
  replace (5/27*f^3*a^3) with (a^3 * (s^3 * 5)) by (unfold s; field).
  assert (0 < a^3) by (apply pow_lt; lra). assert (0 <= s^3) by (apply pow_le; lra).
  assert (0 <= s^2 <= 1/9) by nra. assert (s^3 <= 1) by nra.
  split.
  - apply Rmult_le_pos; [lra|]. apply Rmult_le_pos; lra.
  - apply Rmult_le_compat_l; [lra|]. apply Rmult_le_compat_l; lra.
Qed.
Lemma eqavol_bounds : b <= eqavol ell <= a.
Proof.
  destruct eqavol_form as (E & Hf & Eb). set (f := (a-b)/a) in *. rewrite E. rewrite Eb at 1. split; nra.
Qed.

Lemma Rpower_le_base x y p : 0 < x -> x <= y -> 0 <= p -> Rpower x p <= Rpower y p.
Proof.
  intros Hx [Hlt | ->] Hp; [|lra]. unfold Rpower.
  destruct Hp as [Hp | <-]; [|rewrite !Rmult_0_l; lra].
  left. apply exp_increasing. apply Rmult_lt_compat_l; [assumption|]. now apply ln_increasing.
Qed.
Lemma Rpower_inv x p : 0 < x -> p <> 0 -> Rpower (Rpower x p) (/ p) = x.
Proof. intros Hx Hp. rewrite Rpower_mult, Rinv_r by assumption. now apply Rpower_1. Qed.
Lemma rectifying_bounds : b <= rectifying ell <= a.
Proof.
  unfold rectifying. rewrite resolve_a, resolve_b. fold a b.
  assert (A1 : Rpower b (3/2) <= Rpower a (3/2)) by (apply Rpower_le_base; lra).
  assert (0 < Rpower b (3/2)) by apply exp_pos.
  replace (2/3) with (/ (3/2)) by lra.
  split.
  - rewrite <- (Rpower_inv b (3/2)) at 1 by lra. apply Rpower_le_base; lra.
  - rewrite <- (Rpower_inv a (3/2)) at 2 by lra. apply Rpower_le_base; lra.
Qed.
Lemma sqrt_ab_bounds x y : 0 < x -> x <= y -> x <= sqrt (y * x) <= y.
Proof.
  intros Hx Hy. split.
  - apply Rle_trans with (sqrt (x * x)); [rewrite sqrt_square; lra|apply sqrt_le_1_alt; nra].
  - apply Rle_trans with (sqrt (y * y)); [apply sqrt_le_1_alt; nra|rewrite sqrt_square; lra].
Qed.
Lemma triaxial_norm_cube x y : 0 < x -> x <= y ->
  x <= Rpower (y ^ 2 * x) (1/3) <= y /\ Rpower (y ^ 2 * x) (1/3) ^ 3 = y ^ 2 * x.
Proof.
  intros Hx Hy. assert (0 < y^2*x) by (apply Rmult_lt_0_compat; nra).
  assert (C : Rpower (y ^ 2 * x) (1/3) ^ 3 = y ^ 2 * x).
  { rewrite <- Rpower_pow by apply exp_pos. rewrite Rpower_mult.
    replace (1/3 * INR 3) with 1 by (cbn; lra). now apply Rpower_1. }
  split; [|exact C].
  assert (0 < Rpower (y^2*x) (1/3)) by apply exp_pos. set (r := Rpower _ _) in *.
  assert (C3 : forall u v, 0 < u -> u < v -> u^3 < v^3).
  { intros u v Hu Hv. assert (u*u < v*v) by (apply Rmult_le_0_lt_compat; lra).
    replace (u^3) with (u*u*u) by ring. replace (v^3) with (v*v*v) by ring.
    apply Rmult_le_0_lt_compat; nra. }
  split; apply Rnot_lt_le; intros K.
  - pose proof (C3 r x ltac:(assumption) K).
    assert (x^3 <= y^2*x); [|lra].
    replace (x^3) with (x^2*x) by ring. apply Rmult_le_compat_r; [lra|]. apply pow_incr. lra.
  - pose proof (C3 y r ltac:(lra) K).
    assert (y^2*x <= y^3); [|lra].
    replace (y^3) with (y^2*y) by ring. apply Rmult_le_compat_l; [apply pow2_ge_0|lra].
Qed.
End S.
