(** Karney's reverted distance series (C1p) inverts the distance series to order eps^7. *)
From Coq Require Import QArith List Reals Lra Lia Psatz.
Import ListNotations.
From Coquelicot Require Import Coquelicot.
From Verif Require Import PyMath M_karney L_karney L_poly L_series1.
Open Scope R_scope.

(** ** Taylor remainders of sine and cosine *)
Lemma pos_of_derive f df : (forall t, is_derive f t (df t)) -> (forall t, 0 <= t -> 0 <= df t) -> 0 <= f 0 -> forall y, 0 <= y -> 0 <= f y.
Proof.
  intros D P F y Hy. destruct (MVT_gen f 0 y df) as (c & Hc & E).
  - intros t _. apply D. - intros t _. apply derivable_continuous_pt. exists (df t). apply is_derive_Reals, D.
  - rewrite Rmin_left in Hc by lra. pose proof (P c ltac:(lra)). nra.
Qed.
Ltac tay L := apply (pos_of_derive _ _ L); [intros t Ht|cbv beta; rewrite ?sin_0, ?cos_0; lra].
Lemma taylor_pos y : 0 <= y ->
  y - y ^ 3 / 6 + y ^ 5 / 120 - y ^ 7 / 5040 <= sin y <= y - y ^ 3 / 6 + y ^ 5 / 120 /\
  1 - y ^ 2 / 2 + y ^ 4 / 24 - y ^ 6 / 720 <= cos y <= 1 - y ^ 2 / 2 + y ^ 4 / 24.
Proof.
  assert (S1 : forall y, 0 <= y -> 0 <= y - sin y).
  { apply (pos_of_derive (fun y => y - sin y) (fun y => 1 - cos y)); [intros t; auto_derive; [exact I|ring]| |rewrite sin_0; lra].
    intros t _. pose proof (COS_bound t). lra. }
  assert (C1 : forall y, 0 <= y -> 0 <= cos y - (1 - y ^ 2 / 2)).
  { apply (pos_of_derive (fun y => cos y - (1 - y ^ 2 / 2)) (fun y => y - sin y)); [intros t; auto_derive; [exact I|field]|exact S1|rewrite cos_0; lra]. }
  assert (S2 : forall y, 0 <= y -> 0 <= sin y - (y - y ^ 3 / 6)).
  { apply (pos_of_derive (fun y => sin y - (y - y ^ 3 / 6)) (fun y => cos y - (1 - y ^ 2 / 2))); [intros t; auto_derive; [exact I|field]|exact C1|rewrite sin_0; lra]. }
  assert (C2 : forall y, 0 <= y -> 0 <= 1 - y ^ 2 / 2 + y ^ 4 / 24 - cos y).
  { apply (pos_of_derive (fun y => 1 - y ^ 2 / 2 + y ^ 4 / 24 - cos y) (fun y => sin y - (y - y ^ 3 / 6))); [intros t; auto_derive; [exact I|field]|exact S2|rewrite cos_0; lra]. }
  assert (S3 : forall y, 0 <= y -> 0 <= y - y ^ 3 / 6 + y ^ 5 / 120 - sin y).
  { apply (pos_of_derive (fun y => y - y ^ 3 / 6 + y ^ 5 / 120 - sin y) (fun y => 1 - y ^ 2 / 2 + y ^ 4 / 24 - cos y)); [intros t; auto_derive; [exact I|field]|exact C2|rewrite sin_0; lra]. }
  assert (C3 : forall y, 0 <= y -> 0 <= cos y - (1 - y ^ 2 / 2 + y ^ 4 / 24 - y ^ 6 / 720)).
  { apply (pos_of_derive (fun y => cos y - (1 - y ^ 2 / 2 + y ^ 4 / 24 - y ^ 6 / 720)) (fun y => y - y ^ 3 / 6 + y ^ 5 / 120 - sin y)); [intros t; auto_derive; [exact I|field]|exact S3|rewrite cos_0; lra]. }
  assert (S4 : forall y, 0 <= y -> 0 <= sin y - (y - y ^ 3 / 6 + y ^ 5 / 120 - y ^ 7 / 5040)).
  { apply (pos_of_derive (fun y => sin y - (y - y ^ 3 / 6 + y ^ 5 / 120 - y ^ 7 / 5040)) (fun y => cos y - (1 - y ^ 2 / 2 + y ^ 4 / 24 - y ^ 6 / 720))); [intros t; auto_derive; [exact I|field]|exact C3|rewrite sin_0; lra]. }
  intros Hy. specialize (S3 y Hy). specialize (S4 y Hy). specialize (C2 y Hy). specialize (C3 y Hy). lra.
Qed.
Lemma frac_of y r n : 0 <= y -> (0 < n)%nat -> 0 <= r <= y ^ n -> exists th, Rabs th <= 1 /\ r = th * y ^ n.
Proof.
  intros Hy Hn H. destruct (Req_dec y 0) as [Z|Z].
  - exists 0. rewrite Rabs_R0. split; [lra|]. subst y. rewrite pow_i in * by assumption. lra.
  - assert (P : 0 < y ^ n) by (apply pow_lt; lra). exists (r / y ^ n). split; [|field; lra]. rewrite Rabs_right.
    + apply Rmult_le_reg_r with (y ^ n); [exact P|]. unfold Rdiv. rewrite Rmult_assoc, Rinv_l by lra. lra.
    + apply Rle_ge, Rmult_le_pos; [lra|]. apply Rlt_le, Rinv_0_lt_compat, P.
Qed.
Lemma cos_taylor y : exists th, Rabs th <= 1 /\ cos y = 1 - y ^ 2 / 2 + y ^ 4 / 24 - th * y ^ 6 / 720.
Proof.
  assert (H : exists th, Rabs th <= 1 /\ cos (Rabs y) = 1 - Rabs y ^ 2 / 2 + Rabs y ^ 4 / 24 - th * Rabs y ^ 6 / 720).
  { pose proof (taylor_pos (Rabs y) (Rabs_pos y)) as [_ C]. set (z := Rabs y) in *.
    destruct (frac_of z (720 * (1 - z ^ 2 / 2 + z ^ 4 / 24 - cos z)) 6 (Rabs_pos y) ltac:(lia)) as (th & T & E); [lra|]. exists th. split; [exact T|lra]. }
  destruct H as (th & T & E). exists th. split; [exact T|].
  assert (P2 : Rabs y ^ 2 = y ^ 2) by (rewrite RPow_abs; apply Rabs_right, Rle_ge, pow2_ge_0).
  assert (P4 : Rabs y ^ 4 = y ^ 4) by (replace (y ^ 4) with ((y ^ 2) ^ 2) by ring; rewrite <- P2; ring).
  assert (P6 : Rabs y ^ 6 = y ^ 6) by (replace (y ^ 6) with ((y ^ 2) ^ 3) by ring; rewrite <- P2; ring).
  rewrite P2, P4, P6 in E. rewrite <- E. unfold Rabs. destruct (Rcase_abs y); [now rewrite cos_neg|reflexivity].
Qed.
Lemma sin_taylor y : exists th, Rabs th <= 1 /\ sin y = y * (1 - y ^ 2 / 6 + y ^ 4 / 120 - th * y ^ 6 / 5040).
Proof.
  assert (H : forall z, 0 <= z -> exists th, Rabs th <= 1 /\ sin z = z * (1 - z ^ 2 / 6 + z ^ 4 / 120 - th * z ^ 6 / 5040)).
  { intros z Hz. pose proof (taylor_pos z Hz) as [C _].
    destruct (frac_of z (5040 * (z - z ^ 3 / 6 + z ^ 5 / 120 - sin z)) 7 Hz ltac:(lia)) as (th & T & E); [lra|]. exists th. split; [exact T|].
    assert (sin z = z - z ^ 3 / 6 + z ^ 5 / 120 - th * z ^ 7 / 5040) as -> by lra. field. }
  destruct (Rle_dec 0 y) as [P|P]; [now apply H|]. destruct (H (- y) ltac:(lra)) as (th & T & E). exists th. split; [exact T|].
  rewrite sin_neg in E. replace ((- y) ^ 2) with (y ^ 2) in E by ring. replace ((- y) ^ 4) with (y ^ 4) in E by ring. replace ((- y) ^ 6) with (y ^ 6) in E by ring. lra.
Qed.
(** Sines of multiples: sin 2kt = sin 2t * U(cos 2t). *)
Lemma cheb_sin t : let s := sin (2 * t) in let c := cos (2 * t) in
  sin (2 * (2 * t)) = s * (2 * c) /\ sin (2 * (3 * t)) = s * (4 * c ^ 2 - 1) /\ sin (2 * (4 * t)) = s * (8 * c ^ 3 - 4 * c) /\
  sin (2 * (5 * t)) = s * (16 * c ^ 4 - 12 * c ^ 2 + 1) /\ sin (2 * (6 * t)) = s * (32 * c ^ 5 - 32 * c ^ 3 + 6 * c).
Proof.
  intros s c.
  assert (R3 : forall a, sin (a + 2 * t) = 2 * c * sin a - sin (a - 2 * t)) by (intros; unfold c; rewrite sin_plus, sin_minus; ring).
  assert (C2 : sin (2 * (2 * t)) = s * (2 * c)).
  { replace (2 * (2 * t)) with (2 * t + 2 * t) by ring. rewrite R3. replace (2 * t - 2 * t) with 0 by ring. rewrite sin_0. fold s. ring. }
  assert (C3 : sin (2 * (3 * t)) = s * (4 * c ^ 2 - 1)).
  { replace (2 * (3 * t)) with (2 * (2 * t) + 2 * t) by ring. rewrite R3, C2. replace (2 * (2 * t) - 2 * t) with (2 * t) by ring. fold s. ring. }
  assert (C4 : sin (2 * (4 * t)) = s * (8 * c ^ 3 - 4 * c)).
  { replace (2 * (4 * t)) with (2 * (3 * t) + 2 * t) by ring. rewrite R3, C3. replace (2 * (3 * t) - 2 * t) with (2 * (2 * t)) by ring. rewrite C2. ring. }
  assert (C5 : sin (2 * (5 * t)) = s * (16 * c ^ 4 - 12 * c ^ 2 + 1)).
  { replace (2 * (5 * t)) with (2 * (4 * t) + 2 * t) by ring. rewrite R3, C4. replace (2 * (4 * t) - 2 * t) with (2 * (3 * t)) by ring. rewrite C3. ring. }
  repeat split; try assumption.
  replace (2 * (6 * t)) with (2 * (5 * t) + 2 * t) by ring. rewrite R3, C5. replace (2 * (5 * t) - 2 * t) with (2 * (4 * t)) by ring. rewrite C4. ring.
Qed.

(** ** reversion *)
Definition tser (e t : R) : R := t + SinCosSeries true (sin t) (cos t) (arr (C1f e)) nC1.
Definition sser (e t : R) : R := t + SinCosSeries true (sin t) (cos t) (arr (C1pf e)) nC1.
(** the C1p sum is sin 2t * rd *)
Definition rd (e c : R) : R :=
  e * (205 * e ^ 4 - 432 * e ^ 2 + 768) / 1536 + e ^ 2 * (4005 * e ^ 4 - 4736 * e ^ 2 + 3840) / 12288 * (2 * c)
  + e ^ 3 * (-225 * e ^ 2 + 116) / 384 * (4 * c ^ 2 - 1) + e ^ 4 * (-7173 * e ^ 2 + 2695) / 7680 * (8 * c ^ 3 - 4 * c)
  + e ^ 5 * 3467 / 7680 * (16 * c ^ 4 - 12 * c ^ 2 + 1) + e ^ 6 * 38081 / 61440 * (32 * c ^ 5 - 32 * c ^ 3 + 6 * c).
Lemma sser_eq e t : sser e t = t + sin (2 * t) * rd e (cos (2 * t)).
Proof.
  unfold sser, nC1. rewrite sin6, !C1p_val. destruct (cheb_sin t) as (C2 & C3 & C4 & C5 & C6). rewrite C2, C3, C4, C5, C6. unfold rd. ring.
Qed.
(** sin(2k(t+d)) with d = s * r, over s *)
Definition tk (k U T r c a b : R) : R :=
  U * (1 - (4 * k ^ 2 * (1 - c ^ 2) * r ^ 2) / 2 + (4 * k ^ 2 * (1 - c ^ 2) * r ^ 2) ^ 2 / 24 - a * (4 * k ^ 2 * (1 - c ^ 2) * r ^ 2) ^ 3 / 720)
  + T * (2 * k * r * (1 - (4 * k ^ 2 * (1 - c ^ 2) * r ^ 2) / 6 + (4 * k ^ 2 * (1 - c ^ 2) * r ^ 2) ^ 2 / 120 - b * (4 * k ^ 2 * (1 - c ^ 2) * r ^ 2) ^ 3 / 5040)).
Lemma tk_eq k t r U T : sin (2 * (k * t)) = sin (2 * t) * U -> cos (2 * (k * t)) = T ->
  exists a b, Rabs a <= 1 /\ Rabs b <= 1 /\ sin (2 * (k * (t + sin (2 * t) * r))) = sin (2 * t) * tk k U T r (cos (2 * t)) a b.
Proof.
  intros HU HT. set (s := sin (2 * t)) in *. set (c := cos (2 * t)).
  destruct (cos_taylor (2 * (k * (s * r)))) as (a & A & Ea). destruct (sin_taylor (2 * (k * (s * r)))) as (b & B & Eb).
  exists a, b. split; [exact A|]. split; [exact B|].
  replace (2 * (k * (t + s * r))) with (2 * (k * t) + 2 * (k * (s * r))) by ring. rewrite sin_plus, HU, HT, Ea, Eb.
  assert (S2 : s ^ 2 = 1 - c ^ 2) by (unfold s, c; pose proof (sin2_cos2 (2 * t)) as Q; unfold Rsqr in Q; lra).
  unfold tk. replace ((2 * (k * (s * r))) ^ 2) with (4 * k ^ 2 * (1 - c ^ 2) * r ^ 2) by (rewrite <- S2; ring).
  replace ((2 * (k * (s * r))) ^ 4) with ((4 * k ^ 2 * (1 - c ^ 2) * r ^ 2) ^ 2) by (rewrite <- S2; ring).
  replace ((2 * (k * (s * r))) ^ 6) with ((4 * k ^ 2 * (1 - c ^ 2) * r ^ 2) ^ 3) by (rewrite <- S2; ring).
  ring.
Qed.
Definition rev_err (e c a1 b1 a2 b2 a3 b3 a4 b4 a5 b5 a6 b6 : R) : R :=
  rd e c + (e * (- e ^ 4 + 6 * e ^ 2 - 16) / 32 * tk 1 1 c (rd e c) c a1 b1
  + e ^ 2 * (-9 * e ^ 4 + 64 * e ^ 2 - 128) / 2048 * tk 2 (2 * c) (2 * c ^ 2 - 1) (rd e c) c a2 b2
  + e ^ 3 * (9 * e ^ 2 - 16) / 768 * tk 3 (4 * c ^ 2 - 1) (4 * c ^ 3 - 3 * c) (rd e c) c a3 b3
  + e ^ 4 * (3 * e ^ 2 - 5) / 512 * tk 4 (8 * c ^ 3 - 4 * c) (8 * c ^ 4 - 8 * c ^ 2 + 1) (rd e c) c a4 b4
  + e ^ 5 * -7 / 1280 * tk 5 (16 * c ^ 4 - 12 * c ^ 2 + 1) (16 * c ^ 5 - 20 * c ^ 3 + 5 * c) (rd e c) c a5 b5
  + e ^ 6 * -7 / 2048 * tk 6 (32 * c ^ 5 - 32 * c ^ 3 + 6 * c) (32 * c ^ 6 - 48 * c ^ 4 + 18 * c ^ 2 - 1) (rd e c) c a6 b6).
Lemma rev_err_small e c a1 b1 a2 b2 a3 b3 a4 b4 a5 b5 a6 b6 : 0 <= e <= 1 / 50 -> Rabs c <= 1 ->
  Rabs a1 <= 1 -> Rabs b1 <= 1 -> Rabs a2 <= 1 -> Rabs b2 <= 1 -> Rabs a3 <= 1 -> Rabs b3 <= 1 -> Rabs a4 <= 1 -> Rabs b4 <= 1 ->
  Rabs a5 <= 1 -> Rabs b5 <= 1 -> Rabs a6 <= 1 -> Rabs b6 <= 1 -> Rabs (rev_err e c a1 b1 a2 b2 a3 b3 a4 b4 a5 b5 a6 b6) <= 210 * e ^ 7.
Proof.
  intros He. intros. unfold rev_err, rd, tk. tm_le [e;c;a1;b1;a2;b2;a3;b3;a4;b4;a5;b5;a6;b6] (1#50)%Q 7%nat 7%nat (210#1)%Q; try assumption.
Qed.
Theorem reversion e t : 0 <= e <= 1 / 50 -> Rabs (tser e (sser e t) - t) <= 210 * e ^ 7.
Proof.
  intros He. set (s := sin (2 * t)). set (c := cos (2 * t)). destruct (cheb_sin t) as (S2 & S3 & S4 & S5 & S6). destruct (cheb t) as (T2 & T3 & T4 & T5 & T6).
  fold s c in S2, S3, S4, S5, S6, T2, T3, T4, T5, T6.
  destruct (tk_eq 1 t (rd e c) 1 c ltac:(rewrite Rmult_1_l, Rmult_1_r; reflexivity) ltac:(rewrite Rmult_1_l; reflexivity)) as (a1 & b1 & A1 & B1 & E1).
  destruct (tk_eq 2 t (rd e c) _ _ S2 T2) as (a2 & b2 & A2 & B2 & E2). destruct (tk_eq 3 t (rd e c) _ _ S3 T3) as (a3 & b3 & A3 & B3 & E3).
  destruct (tk_eq 4 t (rd e c) _ _ S4 T4) as (a4 & b4 & A4 & B4 & E4). destruct (tk_eq 5 t (rd e c) _ _ S5 T5) as (a5 & b5 & A5 & B5 & E5).
  destruct (tk_eq 6 t (rd e c) _ _ S6 T6) as (a6 & b6 & A6 & B6 & E6). rewrite Rmult_1_l in E1. fold s c in E1, E2, E3, E4, E5, E6.
  rewrite sser_eq. unfold tser, nC1. fold s c. rewrite sin6, E1, E2, E3, E4, E5, E6, !C1_val.
  match goal with |- Rabs ?x <= _ => replace x with (s * rev_err e c a1 b1 a2 b2 a3 b3 a4 b4 a5 b5 a6 b6) end.
  - rewrite Rabs_mult. pose proof (sin_abs1 (2 * t)) as S. fold s in S. pose proof (Rabs_pos s).
    assert (C : Rabs c <= 1) by apply cos_abs1. pose proof (rev_err_small e c a1 b1 a2 b2 a3 b3 a4 b4 a5 b5 a6 b6 He C A1 B1 A2 B2 A3 B3 A4 B4 A5 B5 A6 B6) as V.
    pose proof (Rabs_pos (rev_err e c a1 b1 a2 b2 a3 b3 a4 b4 a5 b5 a6 b6)). nra.
  - unfold rev_err. generalize (tk 1 1 c (rd e c) c a1 b1) as k1. intros k1.
    generalize (tk 2 (2 * c) (2 * c ^ 2 - 1) (rd e c) c a2 b2) as k2. intros k2. 
    generalize (tk 3 (4 * c ^ 2 - 1) (4 * c ^ 3 - 3 * c) (rd e c) c a3 b3) as k3. intros k3.
    generalize (tk 4 (8 * c ^ 3 - 4 * c) (8 * c ^ 4 - 8 * c ^ 2 + 1) (rd e c) c a4 b4) as k4. intros k4.
    generalize (tk 5 (16 * c ^ 4 - 12 * c ^ 2 + 1) (16 * c ^ 5 - 20 * c ^ 3 + 5 * c) (rd e c) c a5 b5) as k5. intros k5.
    generalize (tk 6 (32 * c ^ 5 - 32 * c ^ 3 + 6 * c) (32 * c ^ 6 - 48 * c ^ 4 + 18 * c ^ 2 - 1) (rd e c) c a6 b6) as k6. intros k6.
    generalize (rd e c) as r. intros r. field.
Qed.
