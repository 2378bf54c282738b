(** Vincenty's distance and longitude series against the integrals of the geodesic. *)
From Coq Require Import QArith List Reals Lra Lia Psatz.
Import ListNotations.
From Coquelicot Require Import Coquelicot.
From Verif Require Import PyMath M_vincenty L_PyMath L_poly L_series1 L_series3.
Open Scope R_scope.

(** ** The distance *)
Definition vser (k2 t : R) : R := let B := vin_B k2 in
  vin_A k2 * (t - (B / 2 * sin (2 * t) + B ^ 2 / 16 * sin (2 * (2 * t)) + B ^ 3 / 48 * sin (2 * (3 * t)))).
Lemma vser_diff k2 t1 s : vser k2 (t1 + s) - vser k2 t1 = vin_A k2 * (s - vin_deltasigma (vin_B k2) (sin s) (cos s) (cos (2 * t1 + s))).
Proof.
  unfold vser, vin_deltasigma. set (A := vin_A k2). set (B := vin_B k2). set (m := 2 * t1 + s).
  assert (H2 : sin (2 * (t1 + s)) - sin (2 * t1) = 2 * cos m * sin s).
  { replace (2 * (t1 + s)) with (m + s) by (unfold m; ring). replace (2 * t1) with (m - s) by (unfold m; ring). rewrite sin_plus, sin_minus. ring. }
  assert (H4 : sin (2 * (2 * (t1 + s))) - sin (2 * (2 * t1)) = 4 * (2 * cos m ^ 2 - 1) * sin s * cos s).
  { replace (2 * (2 * (t1 + s))) with (2 * m + 2 * s) by (unfold m; ring). replace (2 * (2 * t1)) with (2 * m - 2 * s) by (unfold m; ring). rewrite sin_plus, sin_minus, (sin_2a s), (cos_2a_cos m). ring. }
  assert (H6 : sin (2 * (3 * (t1 + s))) - sin (2 * (3 * t1)) = 2 * (4 * cos m ^ 3 - 3 * cos m) * (3 * sin s - 4 * sin s ^ 3)).
  { replace (2 * (3 * (t1 + s))) with (3 * m + 3 * s) by (unfold m; ring). replace (2 * (3 * t1)) with (3 * m - 3 * s) by (unfold m; ring). rewrite sin_plus, sin_minus.
    replace (cos (3 * m)) with (4 * cos m ^ 3 - 3 * cos m). replace (sin (3 * s)) with (3 * sin s - 4 * sin s ^ 3). ring.
    - replace (3 * s) with (2 * s + s) by ring. rewrite sin_plus, sin_2a, cos_2a_sin. assert (Q : cos s ^ 2 = 1 - sin s ^ 2) by (pose proof (sc1 s); nra). ring [Q].
    - replace (3 * m) with (2 * m + m) by ring. rewrite cos_plus, sin_2a, cos_2a_cos. assert (Q : sin m ^ 2 = 1 - cos m ^ 2) by (pose proof (sc1 m); nra). ring [Q]. }
  transitivity (A * (s - (B / 2 * (sin (2 * (t1 + s)) - sin (2 * t1)) + B ^ 2 / 16 * (sin (2 * (2 * (t1 + s))) - sin (2 * (2 * t1))) + B ^ 3 / 48 * (sin (2 * (3 * (t1 + s))) - sin (2 * (3 * t1)))))); [field|].
  rewrite H2, H4, H6. field.
Qed.
Definition vser' (k2 c : R) : R := let B := vin_B k2 in vin_A k2 * (1 - (B * c + B ^ 2 / 4 * (2 * c ^ 2 - 1) + B ^ 3 / 8 * (4 * c ^ 3 - 3 * c))).
Lemma vser_derive k2 t : is_derive (vser k2) t (vser' k2 (cos (2 * t))).
Proof.
  unfold vser, vser'. destruct (cheb t) as (C2 & C3 & _). rewrite <- C2, <- C3. set (A := vin_A k2). set (B := vin_B k2). cbv zeta. auto_derive; [exact I|]. field.
Qed.
Lemma vser'_close k c : 0 <= k <= 1 / 40 -> Rabs c <= 1 -> Rabs (vser' k c ^ 2 - (1 + k * (1 - c) / 2)) <= 9 / 8192 * k ^ 4 + 1/10 * k ^ 5.
Proof.
  intros He Hc.
  assert (H : Rabs (vser' k c ^ 2 - (1 + k * (1 - c) / 2) - k ^ 4 * (1 / 8192 - c ^ 2 / 256 + 5 * c ^ 4 / 1024)) <= 1 / 10 * k ^ 5).
  { unfold vser', vin_A, vin_B. tm_le [k; c] (1#40)%Q 6%nat 5%nat (1#10)%Q; try assumption. }
  assert (P : Rabs (k ^ 4 * (1 / 8192 - c ^ 2 / 256 + 5 * c ^ 4 / 1024)) <= 9 / 8192 * k ^ 4).
  { assert (K4 : 0 <= k ^ 4) by (apply pow_le; lra). rewrite Rabs_mult, (Rabs_right (k ^ 4)) by lra. rewrite Rmult_comm. apply Rmult_le_compat_r; [exact K4|].
    assert (Q : 0 <= c ^ 2 <= 1) by (apply Rabs_le_between in Hc; split; [apply pow2_ge_0|nra]). replace (c ^ 4) with (c ^ 2 * c ^ 2) by ring. apply Rabs_le. nra. }
  match goal with |- Rabs ?x <= _ => replace x with (x - k ^ 4 * (1 / 8192 - c ^ 2 / 256 + 5 * c ^ 4 / 1024) + k ^ 4 * (1 / 8192 - c ^ 2 / 256 + 5 * c ^ 4 / 1024)) by ring end.
  eapply Rle_trans; [apply Rabs_triang|]. lra.
Qed.
Lemma vser'_pos k c : 0 <= k <= 1 / 40 -> Rabs c <= 1 -> 98 / 100 <= vser' k c.
Proof.
  intros He Hc. assert (H : Rabs (vser' k c - 1) <= 6 / 10 * k ^ 1).
  { unfold vser', vin_A, vin_B. tm_le [k; c] (1#40)%Q 6%nat 1%nat (6#10)%Q; try assumption. }
  apply Rabs_le_between in H. lra.
Qed.
(** Relative error of the distance: the neglected order is the fourth in k2. *)
Definition derr (k : R) : R := k ^ 4 * (1 / 1700 + k / 18).
Lemma derr_incr k k' : 0 <= k <= k' -> derr k <= derr k'.
Proof. intros H. unfold derr. apply Rmult_le_compat; [apply pow_le; lra|lra|apply pow_incr; lra|lra]. Qed.
Lemma derr_pos k : 0 <= k -> 0 <= derr k.
Proof. intros H. unfold derr. apply Rmult_le_pos; [apply pow_le; lra|lra]. Qed.
Theorem vin_distance k2 : 0 <= k2 <= 1 / 40 -> forall t1 t2,
  Rabs ((vser k2 t2 - vser k2 t1) - (dexact k2 t2 - dexact k2 t1)) <= derr k2 * Rabs (t2 - t1).
Proof.
  intros Hk. apply (derive_close (vser k2) (dexact k2) (fun t => vser' k2 (cos (2 * t))) (fun t => sqrt (1 + k2 * sin t ^ 2))).
  - intros t. apply vser_derive.
  - intros t. apply dexact_derive. lra.
  - intros t. pose proof (cos_abs1 (2 * t)) as Hc. assert (E : sin t ^ 2 = (1 - cos (2 * t)) / 2) by (rewrite cos_2a_sin; field).
    rewrite E. set (c := cos (2 * t)) in *. pose proof (vser'_pos k2 c Hk Hc) as P. pose proof (vser'_close k2 c Hk Hc) as Q.
    assert (Q1 : 1 <= 1 + k2 * ((1 - c) / 2)) by (apply Rabs_le_between in Hc; nra). set (q := 1 + k2 * ((1 - c) / 2)) in *.
    assert (R1 : 1 <= sqrt q) by (rewrite <- sqrt_1; apply sqrt_le_1; lra).
    assert (SQ : sqrt q ^ 2 = q) by (rewrite <- Rsqr_pow2; apply Rsqr_sqrt; lra).
    replace (1 + k2 * (1 - c) / 2) with (sqrt q ^ 2) in Q by (rewrite SQ; unfold q; field). set (p := vser' k2 c) in *. set (r := sqrt q) in *.
    replace (p ^ 2 - r ^ 2) with ((p - r) * (p + r)) in Q by ring. rewrite Rabs_mult, (Rabs_right (p + r)) in Q by lra.
    assert (198 / 100 * Rabs (p - r) <= 9 / 8192 * k2 ^ 4 + 1 / 10 * k2 ^ 5) by (eapply Rle_trans; [|exact Q]; rewrite Rmult_comm; apply Rmult_le_compat_l; [apply Rabs_pos|lra]).
    unfold derr. assert (0 <= k2 ^ 4) by (apply pow_le; lra). assert (0 <= k2 ^ 5) by (apply pow_le; lra). replace (k2 ^ 4 * (1 / 1700 + k2 / 18)) with (1/1700 * k2 ^ 4 + 1 / 18 * k2 ^ 5) by field. lra.
Qed.
(** ** The longitude *)
Definition vC (f c0 : R) : R := f / 16 * c0 * (4 + f * (4 - 3 * c0)).
Definition vlon (f c0 t : R) : R := let C := vC f c0 in (1 - C) * (t + C / 2 * sin (2 * t) + C ^ 2 / 4 * sin (2 * (2 * t))).
Lemma vlon_diff f c0 t1 s : let C := vC f c0 in let m := cos (2 * t1 + s) in
  vlon f c0 (t1 + s) - vlon f c0 t1 = (1 - C) * (s + C * sin s * (m + C * cos s * (-1 + 2 * m ^ 2))).
Proof.
  cbv zeta. unfold vlon. set (C := vC f c0). set (m := 2 * t1 + s).
  assert (H2 : sin (2 * (t1 + s)) - sin (2 * t1) = 2 * cos m * sin s).
  { replace (2 * (t1 + s)) with (m + s) by (unfold m; ring). replace (2 * t1) with (m - s) by (unfold m; ring). rewrite sin_plus, sin_minus. ring. }
  assert (H4 : sin (2 * (2 * (t1 + s))) - sin (2 * (2 * t1)) = 4 * (2 * cos m ^ 2 - 1) * sin s * cos s).
  { replace (2 * (2 * (t1 + s))) with (2 * m + 2 * s) by (unfold m; ring). replace (2 * (2 * t1)) with (2 * m - 2 * s) by (unfold m; ring). rewrite sin_plus, sin_minus, (sin_2a s), (cos_2a_cos m). ring. }
  transitivity ((1 - C) * (s + C / 2 * (sin (2 * (t1 + s)) - sin (2 * t1)) + C ^ 2 / 4 * (sin (2 * (2 * (t1 + s))) - sin (2 * (2 * t1))))); [field|].
  rewrite H2, H4. field.
Qed.
Definition vlon' (f c0 c : R) : R := let C := vC f c0 in (1 - C) * (1 + C * c + C ^ 2 * (2 * c ^ 2 - 1)).
Lemma vlon_derive f c0 t : is_derive (vlon f c0) t (vlon' f c0 (cos (2 * t))).
Proof.
  unfold vlon, vlon'. destruct (cheb t) as (C2 & _). rewrite <- C2. set (C := vC f c0). cbv zeta. auto_derive; [exact I|]. field.
Qed.
Definition vres (f c0 c : R) : R := let P := vlon' f c0 c in P ^ 2 * (1 - f * (2 - f) * (1 - c0 * (1 - c) / 2)) - (2 - f - P) ^ 2.
Definition v3 (x d : R) : R := x * (d - 3 / 2 * d * x - d ^ 2 * x / 8 + x ^ 2 * (- 1 / 16 + 11 / 8 * d - 7 / 8 * d ^ 2 + 5 / 16 * d ^ 3)).
Lemma v3_bound x d : 0 <= x <= 1 -> 0 <= d <= 2 -> Rabs (v3 x d) <= 1 / 2.
Proof.
  intros Hx Hd. pose (e := d / 2). assert (He : 0 <= e <= 1) by (unfold e; lra). replace d with (2 * e) by (unfold e; field). clearbody e. clear d Hd.
  assert (T : forall q i j k l, 0 <= q -> 0 <= q * (x ^ i * (1 - x) ^ j * (e ^ k * (1 - e) ^ l))).
  { intros q i j k l Q. repeat apply Rmult_le_pos; try assumption; apply pow_le; lra. }
  apply Rabs_le. split.
  - apply Rplus_le_reg_r with (1 / 2). replace (- (1 / 2) + 1 / 2) with 0 by ring.
    replace (v3 x (2 * e) + 1 / 2) with (1 / 2 * (x ^ 0 * (1 - x) ^ 4 * (e ^ 0 * (1 - e) ^ 4)) + 2 / 1 * (x ^ 0 * (1 - x) ^ 4 * (e ^ 1 * (1 - e) ^ 3)) + 3 / 1 * (x ^ 0 * (1 - x) ^ 4 * (e ^ 2 * (1 - e) ^ 2)) + 2 / 1 * (x ^ 0 * (1 - x) ^ 4 * (e ^ 3 * (1 - e) ^ 1)) + 1 / 2 * (x ^ 0 * (1 - x) ^ 4 * (e ^ 4 * (1 - e) ^ 0)) + 2 / 1 * (x ^ 1 * (1 - x) ^ 3 * (e ^ 0 * (1 - e) ^ 4)) + 10 / 1 * (x ^ 1 * (1 - x) ^ 3 * (e ^ 1 * (1 - e) ^ 3)) + 18 / 1 * (x ^ 1 * (1 - x) ^ 3 * (e ^ 2 * (1 - e) ^ 2)) + 14 / 1 * (x ^ 1 * (1 - x) ^ 3 * (e ^ 3 * (1 - e) ^ 1)) + 4 / 1 * (x ^ 1 * (1 - x) ^ 3 * (e ^ 4 * (1 - e) ^ 0)) + 3 / 1 * (x ^ 2 * (1 - x) ^ 2 * (e ^ 0 * (1 - e) ^ 4)) + 15 / 1 * (x ^ 2 * (1 - x) ^ 2 * (e ^ 1 * (1 - e) ^ 3)) + 53 / 2 * (x ^ 2 * (1 - x) ^ 2 * (e ^ 2 * (1 - e) ^ 2)) + 20 / 1 * (x ^ 2 * (1 - x) ^ 2 * (e ^ 3 * (1 - e) ^ 1)) + 11 / 2 * (x ^ 2 * (1 - x) ^ 2 * (e ^ 4 * (1 - e) ^ 0)) + 31 / 16 * (x ^ 3 * (1 - x) ^ 1 * (e ^ 0 * (1 - e) ^ 4)) + 21 / 2 * (x ^ 3 * (1 - x) ^ 1 * (e ^ 1 * (1 - e) ^ 3)) + 123 / 8 * (x ^ 3 * (1 - x) ^ 1 * (e ^ 2 * (1 - e) ^ 2)) + 19 / 2 * (x ^ 3 * (1 - x) ^ 1 * (e ^ 3 * (1 - e) ^ 1)) + 43 / 16 * (x ^ 3 * (1 - x) ^ 1 * (e ^ 4 * (1 - e) ^ 0)) + 7 / 16 * (x ^ 4 * (1 - x) ^ 0 * (e ^ 0 * (1 - e) ^ 4)) + 7 / 2 * (x ^ 4 * (1 - x) ^ 0 * (e ^ 1 * (1 - e) ^ 3)) + 31 / 8 * (x ^ 4 * (1 - x) ^ 0 * (e ^ 2 * (1 - e) ^ 2)) + 3 / 2 * (x ^ 4 * (1 - x) ^ 0 * (e ^ 3 * (1 - e) ^ 1)) + 11 / 16 * (x ^ 4 * (1 - x) ^ 0 * (e ^ 4 * (1 - e) ^ 0))) by (unfold v3; field).
    repeat apply Rplus_le_le_0_compat; apply T; lra.
  - apply Rplus_le_reg_r with (- v3 x (2 * e)). replace (v3 x (2 * e) + - v3 x (2 * e)) with 0 by ring.
    replace (1 / 2 + - v3 x (2 * e)) with (1 / 2 * (x ^ 0 * (1 - x) ^ 4 * (e ^ 0 * (1 - e) ^ 4)) + 2 / 1 * (x ^ 0 * (1 - x) ^ 4 * (e ^ 1 * (1 - e) ^ 3)) + 3 / 1 * (x ^ 0 * (1 - x) ^ 4 * (e ^ 2 * (1 - e) ^ 2)) + 2 / 1 * (x ^ 0 * (1 - x) ^ 4 * (e ^ 3 * (1 - e) ^ 1)) + 1 / 2 * (x ^ 0 * (1 - x) ^ 4 * (e ^ 4 * (1 - e) ^ 0)) + 2 / 1 * (x ^ 1 * (1 - x) ^ 3 * (e ^ 0 * (1 - e) ^ 4)) + 6 / 1 * (x ^ 1 * (1 - x) ^ 3 * (e ^ 1 * (1 - e) ^ 3)) + 6 / 1 * (x ^ 1 * (1 - x) ^ 3 * (e ^ 2 * (1 - e) ^ 2)) + 2 / 1 * (x ^ 1 * (1 - x) ^ 3 * (e ^ 3 * (1 - e) ^ 1)) + 3 / 1 * (x ^ 2 * (1 - x) ^ 2 * (e ^ 0 * (1 - e) ^ 4)) + 9 / 1 * (x ^ 2 * (1 - x) ^ 2 * (e ^ 1 * (1 - e) ^ 3)) + 19 / 2 * (x ^ 2 * (1 - x) ^ 2 * (e ^ 2 * (1 - e) ^ 2)) + 4 / 1 * (x ^ 2 * (1 - x) ^ 2 * (e ^ 3 * (1 - e) ^ 1)) + 1 / 2 * (x ^ 2 * (1 - x) ^ 2 * (e ^ 4 * (1 - e) ^ 0)) + 33 / 16 * (x ^ 3 * (1 - x) ^ 1 * (e ^ 0 * (1 - e) ^ 4)) + 11 / 2 * (x ^ 3 * (1 - x) ^ 1 * (e ^ 1 * (1 - e) ^ 3)) + 69 / 8 * (x ^ 3 * (1 - x) ^ 1 * (e ^ 2 * (1 - e) ^ 2)) + 13 / 2 * (x ^ 3 * (1 - x) ^ 1 * (e ^ 3 * (1 - e) ^ 1)) + 21 / 16 * (x ^ 3 * (1 - x) ^ 1 * (e ^ 4 * (1 - e) ^ 0)) + 9 / 16 * (x ^ 4 * (1 - x) ^ 0 * (e ^ 0 * (1 - e) ^ 4)) + 1 / 2 * (x ^ 4 * (1 - x) ^ 0 * (e ^ 1 * (1 - e) ^ 3)) + 17 / 8 * (x ^ 4 * (1 - x) ^ 0 * (e ^ 2 * (1 - e) ^ 2)) + 5 / 2 * (x ^ 4 * (1 - x) ^ 0 * (e ^ 3 * (1 - e) ^ 1)) + 5 / 16 * (x ^ 4 * (1 - x) ^ 0 * (e ^ 4 * (1 - e) ^ 0))) by (unfold v3; field).
    repeat apply Rplus_le_le_0_compat; apply T; lra.
Qed.
Lemma vres_small f c0 c : 0 <= f <= 1 / 100 -> 0 <= c0 <= 1 -> Rabs c <= 1 -> Rabs (vres f c0 c) <= f ^ 3 * (1 / 2 + 7 * f).
Proof.
  intros Hf H0 Hc. assert (H0' : Rabs c0 <= 1) by (apply Rabs_le; lra).
  assert (H : Rabs (vres f c0 c - f ^ 3 * v3 c0 (1 - c)) <= 7 * f ^ 4).
  { unfold vres, vlon', vC, v3. tm_le [f; c0; c] (1#100)%Q 5%nat 4%nat (7#1)%Q; try assumption. }
  assert (P : Rabs (f ^ 3 * v3 c0 (1 - c)) <= 1 / 2 * f ^ 3).
  { assert (K4 : 0 <= f ^ 3) by (apply pow_le; lra). rewrite Rabs_mult, (Rabs_right (f ^ 3)) by lra. rewrite Rmult_comm. apply Rmult_le_compat_r; [exact K4|]. apply v3_bound; [exact H0|]. apply Rabs_le_between in Hc. lra. }
  replace (vres f c0 c) with (vres f c0 c - f ^ 3 * v3 c0 (1 - c) + f ^ 3 * v3 c0 (1 - c)) by ring. eapply Rle_trans; [apply Rabs_triang|].
  replace (f ^ 3 * (1 / 2 + 7 * f)) with (7 * f ^ 4 + 1 / 2 * f ^ 3) by field. lra.
Qed.
Lemma vlon'_one f c0 c : 0 <= f <= 1 / 100 -> 0 <= c0 <= 1 -> Rabs c <= 1 -> Rabs (vlon' f c0 c - 1) <= 6 / 10 * f ^ 1.
Proof. intros Hf H0 Hc. assert (H0' : Rabs c0 <= 1) by (apply Rabs_le; lra). unfold vlon', vC. tm_le [f; c0; c] (1#100)%Q 5%nat 1%nat (6#10)%Q; try assumption. Qed.
(** Error of the longitude correction (before its factor f sin(alpha)): third order in f. *)
Definition lerr (f : R) : R := f ^ 3 * (1 / 7 + 2 * f).
Lemma lerr_pos f : 0 <= f -> 0 <= lerr f.
Proof. intros H. unfold lerr. apply Rmult_le_pos; [apply pow_le; lra|lra]. Qed.
Theorem vin_longitude f c0 : 0 <= f <= 1 / 100 -> 0 <= c0 <= 1 -> forall t1 t2, let k2 := c0 * (f * (2 - f) / (1 - f) ^ 2) in
  Rabs ((vlon f c0 t2 - vlon f c0 t1) - (lexact f k2 t2 - lexact f k2 t1)) <= lerr f * Rabs (t2 - t1).
Proof.
  intros Hf H0 t1 t2 k2. assert (Hk : 0 <= k2) by (unfold k2; apply Rmult_le_pos; [lra|apply Rmult_le_pos; [nra|left; apply Rinv_0_lt_compat, pow_lt; lra]]).
  apply (derive_close (vlon f c0) (lexact f k2) (fun t => vlon' f c0 (cos (2 * t))) (lint f k2)).
  - intros t. apply vlon_derive.
  - intros t. apply lexact_derive; lra.
  - intros t. unfold lint. pose proof (cos_abs1 (2 * t)) as Hc. assert (E : sin t ^ 2 = (1 - cos (2 * t)) / 2) by (rewrite cos_2a_sin; field).
    rewrite E. set (c := cos (2 * t)) in *. pose proof (vlon'_one f c0 c Hf H0 Hc) as V. rewrite pow_1 in V. apply Rabs_le_between in V. apply Rabs_le_between in Hc.
    pose proof (vres_small f c0 c Hf H0 (Rabs_le _ _ Hc)) as Q. unfold vres in Q. set (p := vlon' f c0 c) in *. cbv zeta in Q.
    set (q := 1 + k2 * ((1 - c) / 2)). assert (Q1 : 1 <= q) by (unfold q; assert (0 <= k2 * ((1 - c) / 2)) by (apply Rmult_le_pos; lra); lra).
    assert (R1 : 1 <= sqrt q) by (rewrite <- sqrt_1; apply sqrt_le_1; lra). assert (SQ : sqrt q ^ 2 = q) by (rewrite <- Rsqr_pow2; apply Rsqr_sqrt; lra).
    set (y := (1 - f) * sqrt q). assert (Y2 : y ^ 2 = 1 - f * (2 - f) * (1 - c0 * (1 - c) / 2)).
    { unfold y. rewrite Rpow_mult_distr, SQ. unfold q, k2. field. lra. }
    rewrite <- Y2 in Q. assert (Y1 : 1 - f <= y) by (unfold y; nra).
    replace (p ^ 2 * y ^ 2 - (2 - f - p) ^ 2) with ((p * (1 + y) - (2 - f)) * (p * y + (2 - f - p))) in Q by ring.
    replace (p - (2 - f) / (1 + y)) with ((p * (1 + y) - (2 - f)) / (1 + y)) by (field; lra).
    rewrite Rabs_mult in Q. unfold Rdiv. rewrite Rabs_mult, (Rabs_right (/ (1 + y))) by (apply Rle_ge, Rlt_le, Rinv_0_lt_compat; lra).
    set (D := Rabs (p * (1 + y) - (2 - f))) in *. assert (HD : 0 <= D) by apply Rabs_pos.
    assert (PY : 98 / 100 <= p * y) by nra. rewrite (Rabs_right (p * y + (2 - f - p))) in Q by lra.
    assert (F3 : 0 <= f ^ 3) by (apply pow_le; lra). assert (F4 : 0 <= f ^ 3 * f) by (apply Rmult_le_pos; lra). apply Rmult_le_reg_r with (1 + y); [lra|]. rewrite Rmult_assoc, Rinv_l, Rmult_1_r by lra.
    assert (192 / 100 * D <= f ^ 3 * (1 / 2 + 7 * f)) by (eapply Rle_trans; [|exact Q]; rewrite Rmult_comm; apply Rmult_le_compat_l; lra).
    apply Rle_trans with (lerr f * (198 / 100)); [unfold lerr; lra|]. apply Rmult_le_compat_l; [apply lerr_pos; lra|lra].
Qed.
