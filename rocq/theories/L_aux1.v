(** The series of the auxiliary latitudes against their defining integrals:
    general part, and the rectifying latitude. *)
From Coq Require Import QArith List Reals Lra Lia Psatz.
Import ListNotations.
From Coquelicot Require Import Coquelicot.
From Verif Require Import PyMath L_PyMath L_poly L_series1 L_series2.
Open Scope R_scope.

(** ** Sine series with seven terms *)
Record coefs := mkc { k1 : R; k2 : R; k3 : R; k4 : R; k5 : R; k6 : R; k7 : R }.
Definition del (h : coefs) (x : R) : R :=
  k1 h * sin (2 * x) + k2 h * sin (2 * (2 * x)) + k3 h * sin (2 * (3 * x)) + k4 h * sin (2 * (4 * x))
  + k5 h * sin (2 * (5 * x)) + k6 h * sin (2 * (6 * x)) + k7 h * sin (2 * (7 * x)).
Definition ssum (h : coefs) (x : R) : R := x + del h x.
(** its derivative, in terms of c = cos 2x *)
Definition dsum (h : coefs) (c : R) : R :=
  1 + 2 * k1 h * c + 4 * k2 h * (2 * c ^ 2 - 1) + 6 * k3 h * (4 * c ^ 3 - 3 * c) + 8 * k4 h * (8 * c ^ 4 - 8 * c ^ 2 + 1)
  + 10 * k5 h * (16 * c ^ 5 - 20 * c ^ 3 + 5 * c) + 12 * k6 h * (32 * c ^ 6 - 48 * c ^ 4 + 18 * c ^ 2 - 1)
  + 14 * k7 h * (64 * c ^ 7 - 112 * c ^ 5 + 56 * c ^ 3 - 7 * c).
(** del = sin 2x times this *)
Definition vsum (h : coefs) (c : R) : R :=
  k1 h + k2 h * (2 * c) + k3 h * (4 * c ^ 2 - 1) + k4 h * (8 * c ^ 3 - 4 * c) + k5 h * (16 * c ^ 4 - 12 * c ^ 2 + 1)
  + k6 h * (32 * c ^ 5 - 32 * c ^ 3 + 6 * c) + k7 h * (64 * c ^ 6 - 80 * c ^ 4 + 24 * c ^ 2 - 1).
Lemma cheb7 t : cos (2 * (7 * t)) = 64 * cos (2 * t) ^ 7 - 112 * cos (2 * t) ^ 5 + 56 * cos (2 * t) ^ 3 - 7 * cos (2 * t).
Proof.
  destruct (cheb t) as (_ & _ & _ & C5 & C6). replace (2 * (7 * t)) with (2 * (6 * t) + 2 * t) by ring.
  replace (cos (2 * (6 * t) + 2 * t)) with (2 * cos (2 * t) * cos (2 * (6 * t)) - cos (2 * (5 * t))).
  - rewrite C5, C6. ring.
  - replace (2 * (5 * t)) with (2 * (6 * t) - 2 * t) by ring. rewrite cos_plus, cos_minus. ring.
Qed.
Lemma sin_rec t k : sin (2 * ((k + 1) * t)) = 2 * cos (2 * t) * sin (2 * (k * t)) - sin (2 * ((k - 1) * t)).
Proof.
  replace (2 * ((k + 1) * t)) with (2 * (k * t) + 2 * t) by ring. replace (2 * ((k - 1) * t)) with (2 * (k * t) - 2 * t) by ring.
  rewrite sin_plus, sin_minus. ring.
Qed.
Lemma del_v h x : del h x = sin (2 * x) * vsum h (cos (2 * x)).
Proof.
  assert (S1 : sin (2 * (1 * x)) = sin (2 * x)) by (f_equal; ring).
  assert (S2 : sin (2 * (2 * x)) = sin (2 * x) * (2 * cos (2 * x))) by (rewrite sin_2a; ring).
  pose proof (sin_rec x 2) as S3. replace (2 + 1) with 3 in S3 by ring. replace (2 - 1) with 1 in S3 by ring.
  pose proof (sin_rec x 3) as S4. replace (3 + 1) with 4 in S4 by ring. replace (3 - 1) with 2 in S4 by ring.
  pose proof (sin_rec x 4) as S5. replace (4 + 1) with 5 in S5 by ring. replace (4 - 1) with 3 in S5 by ring.
  pose proof (sin_rec x 5) as S6. replace (5 + 1) with 6 in S6 by ring. replace (5 - 1) with 4 in S6 by ring.
  pose proof (sin_rec x 6) as S7. replace (6 + 1) with 7 in S7 by ring. replace (6 - 1) with 5 in S7 by ring.
  unfold del, vsum. rewrite S7, S6, S5, S4, S3, S2, S1. ring.
Qed.
Lemma ssum_derive h x : is_derive (ssum h) x (dsum h (cos (2 * x))).
Proof.
  unfold ssum, del, dsum. rewrite <- cheb7. destruct (cheb x) as (C2 & C3 & C4 & C5 & C6). rewrite <- C2, <- C3, <- C4, <- C5, <- C6.
  auto_derive; [exact I|ring].
Qed.
Lemma del_bound h x : Rabs (del h x) <= Rabs (k1 h) + Rabs (k2 h) + Rabs (k3 h) + Rabs (k4 h) + Rabs (k5 h) + Rabs (k6 h) + Rabs (k7 h).
Proof.
  unfold del. assert (B : forall k u, Rabs (k * sin u) <= Rabs k).
  { intros k u. rewrite Rabs_mult. pose proof (sin_abs1 u). pose proof (Rabs_pos k). rewrite <- (Rmult_1_r (Rabs k)) at 2. apply Rmult_le_compat_l; assumption. }
  repeat (eapply Rle_trans; [apply Rabs_triang|]; apply Rplus_le_compat; [|apply B]). apply B.
Qed.
Lemma dsum_sub_bound h g x : Rabs (dsum h (cos (2 * x)) - dsum g (cos (2 * x))) <=
  2 * Rabs (k1 h - k1 g) + 4 * Rabs (k2 h - k2 g) + 6 * Rabs (k3 h - k3 g) + 8 * Rabs (k4 h - k4 g)
  + 10 * Rabs (k5 h - k5 g) + 12 * Rabs (k6 h - k6 g) + 14 * Rabs (k7 h - k7 g).
Proof.
  unfold dsum. rewrite <- cheb7. destruct (cheb x) as (C2 & C3 & C4 & C5 & C6). rewrite <- C2, <- C3, <- C4, <- C5, <- C6.
  match goal with |- Rabs ?e <= _ => replace e with (2 * (k1 h - k1 g) * cos (2 * x) + 4 * (k2 h - k2 g) * cos (2 * (2 * x)) + 6 * (k3 h - k3 g) * cos (2 * (3 * x))
    + 8 * (k4 h - k4 g) * cos (2 * (4 * x)) + 10 * (k5 h - k5 g) * cos (2 * (5 * x)) + 12 * (k6 h - k6 g) * cos (2 * (6 * x)) + 14 * (k7 h - k7 g) * cos (2 * (7 * x))) by ring end.
  assert (B : forall q k u, 0 <= q -> Rabs (q * k * cos u) <= q * Rabs k).
  { intros q k u Hq. rewrite !Rabs_mult, (Rabs_right q) by lra. pose proof (cos_abs1 u). pose proof (Rabs_pos k). rewrite <- (Rmult_1_r (q * Rabs k)) at 2.
    apply Rmult_le_compat_l; [apply Rmult_le_pos; assumption|assumption]. }
  repeat (eapply Rle_trans; [apply Rabs_triang|]; apply Rplus_le_compat; [|apply B; lra]). apply B; lra.
Qed.
Definition csub (h g : coefs) : coefs :=
  mkc (k1 h - k1 g) (k2 h - k2 g) (k3 h - k3 g) (k4 h - k4 g) (k5 h - k5 g) (k6 h - k6 g) (k7 h - k7 g).
Lemma ssum_sub h g x : ssum h x - ssum g x = del (csub h g) x.
Proof. unfold ssum, del, csub; cbn [k1 k2 k3 k4 k5 k6 k7]. ring. Qed.
Lemma ssum_0 h : ssum h 0 = 0.
Proof. unfold ssum, del. rewrite !Rmult_0_r, sin_0. ring. Qed.
Lemma ssum_opp h x : ssum h (- x) = - ssum h x.
Proof.
  unfold ssum, del.
  replace (2 * (2 * - x)) with (- (2 * (2 * x))) by ring. replace (2 * (3 * - x)) with (- (2 * (3 * x))) by ring.
  replace (2 * (4 * - x)) with (- (2 * (4 * x))) by ring. replace (2 * (5 * - x)) with (- (2 * (5 * x))) by ring.
  replace (2 * (6 * - x)) with (- (2 * (6 * x))) by ring. replace (2 * (7 * - x)) with (- (2 * (7 * x))) by ring.
  replace (2 * - x) with (- (2 * x)) by ring. rewrite !sin_neg. ring.
Qed.
Lemma sin_Zpi k : sin (IZR k * PI) = 0.
Proof. apply sin_eq_0_1. exists k. reflexivity. Qed.
Lemma ssum_PI2 h : ssum h (PI / 2) = PI / 2.
Proof.
  unfold ssum, del. pose proof (sin_Zpi 1). pose proof (sin_Zpi 2). pose proof (sin_Zpi 3). pose proof (sin_Zpi 4).
  pose proof (sin_Zpi 5). pose proof (sin_Zpi 6). pose proof (sin_Zpi 7).
  replace (2 * (2 * (PI / 2))) with (2 * PI) by field.
  replace (2 * (3 * (PI / 2))) with (3 * PI) by field. replace (2 * (4 * (PI / 2))) with (4 * PI) by field.
  replace (2 * (5 * (PI / 2))) with (5 * PI) by field. replace (2 * (6 * (PI / 2))) with (6 * PI) by field.
  replace (2 * (7 * (PI / 2))) with (7 * PI) by field. replace (2 * (PI / 2)) with (1 * PI) by field.
  rewrite H, H0, H1, H2, H3, H4, H5. ring.
Qed.
(** ** The rectifying latitude *)
(** mean of the meridian radius over a / (1 + n) *)
Definition rmean (n : R) : R := 1 + n ^ 2 / 4 + n ^ 4 / 64 + n ^ 6 / 256.
Definition r1 (n : R) : R := 0 - 3 / 2 * n ^ 1 + 9 / 16 * n ^ 3 - 3 / 32 * n ^ 5 + 57 / 2048 * n ^ 7.
Definition r2 (n : R) : R := 15 / 16 * n ^ 2 - 15 / 32 * n ^ 4 + 135 / 2048 * n ^ 6.
Definition r3 (n : R) : R := 0 - 35 / 48 * n ^ 3 + 105 / 256 * n ^ 5 - 105 / 2048 * n ^ 7.
Definition r4 (n : R) : R := 315 / 512 * n ^ 4 - 189 / 512 * n ^ 6.
Definition r5 (n : R) : R := 0 - 693 / 1280 * n ^ 5 + 693 / 2048 * n ^ 7.
Definition r6 (n : R) : R := 1001 / 2048 * n ^ 6.
Definition r7 (n : R) : R := 0 - 6435 / 14336 * n ^ 7.
Definition ri1 (n : R) : R := 3 / 2 * n ^ 1 - 27 / 32 * n ^ 3 + 269 / 512 * n ^ 5 - 6607 / 24576 * n ^ 7.
Definition ri2 (n : R) : R := 21 / 16 * n ^ 2 - 55 / 32 * n ^ 4 + 6759 / 4096 * n ^ 6.
Definition ri3 (n : R) : R := 151 / 96 * n ^ 3 - 417 / 128 * n ^ 5 + 87963 / 20480 * n ^ 7.
Definition ri4 (n : R) : R := 1097 / 512 * n ^ 4 - 15543 / 2560 * n ^ 6.
Definition ri5 (n : R) : R := 8011 / 2560 * n ^ 5 - 69119 / 6144 * n ^ 7.
Definition ri6 (n : R) : R := 293393 / 61440 * n ^ 6.
Definition ri7 (n : R) : R := 6459601 / 860160 * n ^ 7.
Definition rect (n : R) : coefs := mkc (r1 n) (r2 n) (r3 n) (r4 n) (r5 n) (r6 n) (r7 n).
Definition recti (n : R) : coefs := mkc (ri1 n) (ri2 n) (ri3 n) (ri4 n) (ri5 n) (ri6 n) (ri7 n).
Definition rad2 (n c : R) : R := 1 + 2 * n * c + n ^ 2.
Ltac unr := unfold dsum, vsum, rect, recti, rmean, rad2, r1, r2, r3, r4, r5, r6, r7, ri1, ri2, ri3, ri4, ri5, ri6, ri7; cbn [k1 k2 k3 k4 k5 k6 k7].
Lemma rect_res n c : 0 <= n <= 1 / 19 -> Rabs c <= 1 -> Rabs ((rmean n * dsum (rect n) c) ^ 2 * rad2 n c ^ 3 - (1 - n ^ 2) ^ 4) <= 8800 * n ^ 8.
Proof. intros. unr. tm_le [n; c] (1#19)%Q 16%nat 8%nat (8800#1)%Q; try assumption. Qed.
Lemma recti_res n c th th' y v : 0 <= n <= 1 / 19 -> Rabs c <= 1 -> Rabs th <= 1 -> Rabs th' <= 1 -> v = vsum (recti n) c -> y = 4 * (1 - c ^ 2) * v ^ 2 ->
  Rabs ((1 - n ^ 2) ^ 4 * dsum (recti n) c ^ 2 - rmean n ^ 2 * rad2 n (c * (1 - y / 2 + y ^ 2 / 24 - th * y ^ 3 / 720) - 2 * (1 - c ^ 2) * v * (1 - y / 6 + y ^ 2 / 120 - th' * y ^ 3 / 5040)) ^ 3) <= 23000 * n ^ 7.
Proof. intros. subst y. subst v. unr. tm_le [n; c; th; th'] (1#19)%Q 12%nat 7%nat (23000#1)%Q; try assumption. Qed.
Lemma rad2_lo n c : 0 <= n <= 1 / 19 -> Rabs c <= 1 -> (1 - n) ^ 2 <= rad2 n c <= (1 + n) ^ 2.
Proof. intros Hn Hc. apply Rabs_le_between in Hc. unfold rad2. nra. Qed.
(** The meridian radius of curvature over a / (1 + n). *)
Definition mrad (n c : R) : R := (1 - n ^ 2) ^ 2 / sqrt (rad2 n c) ^ 3.
Lemma n_facts n : 0 <= n <= 1 / 19 -> 1 - n ^ 2 <= 1 /\ 99 / 100 <= 1 - n ^ 2 /\ 98 / 100 <= (1 - n ^ 2) ^ 4.
Proof. intros H. assert (0 <= n ^ 2 <= 1 / 361) by (split; [apply pow2_ge_0|]; nra). repeat split; try lra. assert (99 / 100 <= (1 - n ^ 2) ^ 2) by nra. replace ((1 - n ^ 2) ^ 4) with (((1 - n ^ 2) ^ 2) ^ 2) by ring. nra. Qed.
Lemma sqrt_rad2 n c : 0 <= n <= 1 / 19 -> Rabs c <= 1 -> 1 - n <= sqrt (rad2 n c) <= 1 + n /\ sqrt (rad2 n c) ^ 2 = rad2 n c.
Proof.
  intros Hn Hc. destruct (rad2_lo n c Hn Hc) as [L U]. split; [split|].
  - rewrite <- (sqrt_pow2 (1 - n)) by lra. apply sqrt_le_1; nra.
  - rewrite <- (sqrt_pow2 (1 + n)) by lra. apply sqrt_le_1; nra.
  - rewrite <- Rsqr_pow2. apply Rsqr_sqrt. nra.
Qed.
Lemma mrad_pos n c : 0 <= n <= 1 / 19 -> Rabs c <= 1 -> 4 / 5 <= mrad n c <= 6 / 5.
Proof.
  intros Hn Hc. destruct (sqrt_rad2 n c Hn Hc) as [[L U] _]. set (x := sqrt (rad2 n c)) in *. unfold mrad. fold x.
  assert (X3 : (1 - n) ^ 3 <= x ^ 3 <= (1 + n) ^ 3) by (split; apply pow_incr; lra).
  assert (P0 : 0 < (1 - n) ^ 3) by (apply pow_lt; lra).
  split; apply Rmult_le_reg_r with (x ^ 3); try lra; replace ((1 - n ^ 2) ^ 2 / x ^ 3 * x ^ 3) with ((1 - n ^ 2) ^ 2) by (field; lra).
  - apply Rle_trans with (4 / 5 * (1 + n) ^ 3); [lra|]. replace ((1 - n ^ 2) ^ 2) with ((1 - n) ^ 2 * (1 + n) ^ 2) by ring.
    replace (4 / 5 * (1 + n) ^ 3) with (4 / 5 * (1 + n) * (1 + n) ^ 2) by ring. apply Rmult_le_compat_r; [apply pow2_ge_0|nra].
  - apply Rle_trans with (6 / 5 * (1 - n) ^ 3); [|lra]. replace ((1 - n ^ 2) ^ 2) with ((1 + n) ^ 2 * (1 - n) ^ 2) by ring.
    replace (6 / 5 * (1 - n) ^ 3) with (6 / 5 * (1 - n) * (1 - n) ^ 2) by ring. apply Rmult_le_compat_r; [apply pow2_ge_0|nra].
Qed.
Lemma dsum_pos n c : 0 <= n <= 1 / 19 -> Rabs c <= 1 -> 0 < dsum (rect n) c /\ 0 < dsum (recti n) c.
Proof.
  intros Hn Hc.
  assert (H : Rabs (dsum (rect n) c - 1) <= 6 * n ^ 1) by (unr; tm_le [n; c] (1#19)%Q 8%nat 1%nat (6#1)%Q; try assumption).
  assert (H' : Rabs (dsum (recti n) c - 1) <= 7 * n ^ 1) by (unr; tm_le [n; c] (1#19)%Q 8%nat 1%nat (7#1)%Q; try assumption).
  apply Rabs_le_between in H. apply Rabs_le_between in H'. lra.
Qed.
Lemma rmean_pos n : 0 <= n <= 1 / 19 -> 1 <= rmean n <= 1001 / 1000.
Proof. intros H. unfold rmean. assert (0 <= n ^ 2 <= 1 / 361) by (split; [apply pow2_ge_0|]; nra). replace (n ^ 4) with (n ^ 2 * n ^ 2) by ring. replace (n ^ 6) with (n ^ 2 * n ^ 2 * n ^ 2) by ring. nra. Qed.
(** Relative error of the long series. *)
Lemma rect_close n c : 0 <= n <= 1 / 19 -> Rabs c <= 1 -> Rabs (rmean n * dsum (rect n) c - mrad n c) <= 9000 * n ^ 8 * mrad n c.
Proof.
  intros Hn Hc. pose proof (rect_res n c Hn Hc) as H. destruct (sqrt_rad2 n c Hn Hc) as [[L U] E]. destruct (dsum_pos n c Hn Hc) as [P _]. pose proof (rmean_pos n Hn) as M.
  destruct (n_facts n Hn) as (N1 & N2 & N3). unfold mrad. set (x := sqrt (rad2 n c)) in *. rewrite <- E in H. set (Y := rmean n * dsum (rect n) c) in *.
  assert (PY : 0 < Y) by (apply Rmult_lt_0_compat; lra). assert (X3 : 0 < x ^ 3) by (apply pow_lt; lra). set (q := (1 - n ^ 2) ^ 2) in *.
  assert (Q : 99 / 100 * (99 / 100) <= q) by (unfold q; nra). assert (N8 : 0 <= n ^ 8) by (apply pow_le; lra).
  replace (Y ^ 2 * (x ^ 2) ^ 3 - (1 - n ^ 2) ^ 4) with ((Y * x ^ 3 - q) * (Y * x ^ 3 + q)) in H by (unfold q; ring).
  assert (PX : 0 < Y * x ^ 3) by (apply Rmult_lt_0_compat; assumption). rewrite Rabs_mult, (Rabs_right (Y * x ^ 3 + q)) in H by lra.
  assert (B : Rabs (Y * x ^ 3 - q) * q <= 8800 * n ^ 8).
  { eapply Rle_trans; [|exact H]. apply Rmult_le_compat_l; [apply Rabs_pos|lra]. }
  assert (B2 : Rabs (Y * x ^ 3 - q) <= 9000 * n ^ 8 * q).
  { apply Rmult_le_reg_r with q; [lra|]. eapply Rle_trans; [exact B|]. replace (9000 * n ^ 8 * q * q) with (9000 * (1 - n ^ 2) ^ 4 * n ^ 8) by (unfold q; ring).
    apply Rmult_le_compat_r; [exact N8|]. lra. }
  replace (Y - q / x ^ 3) with ((Y * x ^ 3 - q) / x ^ 3) by (field; lra). unfold Rdiv. rewrite Rabs_mult, (Rabs_right (/ x ^ 3)) by (apply Rle_ge, Rlt_le, Rinv_0_lt_compat; lra).
  rewrite <- Rmult_assoc. apply Rmult_le_compat_r; [apply Rlt_le, Rinv_0_lt_compat; lra|exact B2].
Qed.
(** The code's coefficients. *)
Definition rcode (n : R) : coefs := mkc (- (3 * n / 2 - 9 * n ^ 3 / 16)) (15 * n ^ 2 / 16 - 15 * n ^ 4 / 32) (- (35 * n ^ 3 / 48)) (315 * n ^ 4 / 512) 0 0 0.
Definition ricode (n : R) : coefs := mkc (3 * n / 2 - 27 * n ^ 3 / 32) (21 * n ^ 2 / 16 - 55 * n ^ 4 / 32) (151 * n ^ 3 / 96) (1097 * n ^ 4 / 512) 0 0 0.
Lemma abs_pm p q : 0 <= p -> 0 <= q -> Rabs (p - q) <= p + q /\ Rabs (p + q) <= p + q.
Proof. intros. split; apply Rabs_le; lra. Qed.
Lemma code_diff n : 0 <= n <= 1 / 19 ->
  let h := rcode n in let g := rect n in
  Rabs (k1 h - k1 g) <= 1 / 10 * n ^ 5 /\ Rabs (k2 h - k2 g) <= 1 / 10 * n ^ 6 /\ Rabs (k3 h - k3 g) <= 42 / 100 * n ^ 5 /\ Rabs (k4 h - k4 g) <= 2 / 5 * n ^ 6 /\
  Rabs (k5 h - k5 g) <= 55 / 100 * n ^ 5 /\ Rabs (k6 h - k6 g) <= 1 / 2 * n ^ 6 /\ Rabs (k7 h - k7 g) <= 1 / 2 * n ^ 7.
Proof.
  intros Hn. cbv zeta. unfold rcode, rect, r1, r2, r3, r4, r5, r6, r7; cbn [k1 k2 k3 k4 k5 k6 k7]. repeat split.
  - tm_le (n :: nil) (1#19)%Q 9%nat 5%nat (1#10)%Q; try assumption.
  - tm_le (n :: nil) (1#19)%Q 9%nat 6%nat (1#10)%Q; try assumption.
  - tm_le (n :: nil) (1#19)%Q 9%nat 5%nat (42#100)%Q; try assumption.
  - tm_le (n :: nil) (1#19)%Q 9%nat 6%nat (2#5)%Q; try assumption.
  - tm_le (n :: nil) (1#19)%Q 9%nat 5%nat (55#100)%Q; try assumption.
  - tm_le (n :: nil) (1#19)%Q 9%nat 6%nat (1#2)%Q; try assumption.
  - tm_le (n :: nil) (1#19)%Q 9%nat 7%nat (1#2)%Q; try assumption.
Qed.
Lemma icode_diff n : 0 <= n <= 1 / 19 ->
  let h := ricode n in let g := recti n in
  Rabs (k1 h - k1 g) <= 53 / 100 * n ^ 5 /\ Rabs (k2 h - k2 g) <= 17 / 10 * n ^ 6 /\ Rabs (k3 h - k3 g) <= 33 / 10 * n ^ 5 /\ Rabs (k4 h - k4 g) <= 61 / 10 * n ^ 6 /\
  Rabs (k5 h - k5 g) <= 32 / 10 * n ^ 5 /\ Rabs (k6 h - k6 g) <= 48 / 10 * n ^ 6 /\ Rabs (k7 h - k7 g) <= 8 * n ^ 7.
Proof.
  intros Hn. cbv zeta. unfold ricode, recti, ri1, ri2, ri3, ri4, ri5, ri6, ri7; cbn [k1 k2 k3 k4 k5 k6 k7]. repeat split.
  - tm_le (n :: nil) (1#19)%Q 9%nat 5%nat (53#100)%Q; try assumption.
  - tm_le (n :: nil) (1#19)%Q 9%nat 6%nat (17#10)%Q; try assumption.
  - tm_le (n :: nil) (1#19)%Q 9%nat 5%nat (33#10)%Q; try assumption.
  - tm_le (n :: nil) (1#19)%Q 9%nat 6%nat (61#10)%Q; try assumption.
  - tm_le (n :: nil) (1#19)%Q 9%nat 5%nat (32#10)%Q; try assumption.
  - tm_le (n :: nil) (1#19)%Q 9%nat 6%nat (48#10)%Q; try assumption.
  - tm_le (n :: nil) (1#19)%Q 9%nat 7%nat (8#1)%Q; try assumption.
Qed.
