(** The conformal-latitude series against the isometric latitude; the code's
    coefficients for the authalic and conformal latitudes. *)
From Coq Require Import QArith List Reals Lra Lia Psatz.
Import ListNotations.
From Coquelicot Require Import Coquelicot.
From Verif Require Import PyMath L_PyMath L_poly L_series1 L_series2 L_aux1 L_aux2 L_aux3.
Open Scope R_scope.

Definition cf1 (n : R) : R := 2 * n ^ 1 - 2 / 3 * n ^ 2 - 2 * n ^ 3 + 116 / 45 * n ^ 4 + 26 / 45 * n ^ 5 - 2854 / 675 * n ^ 6 + 16822 / 4725 * n ^ 7.
Definition cf2 (n : R) : R := 7 / 3 * n ^ 2 - 8 / 5 * n ^ 3 - 227 / 45 * n ^ 4 + 2704 / 315 * n ^ 5 + 2323 / 945 * n ^ 6 - 31256 / 1575 * n ^ 7.
Definition cf3 (n : R) : R := 56 / 15 * n ^ 3 - 136 / 35 * n ^ 4 - 1262 / 105 * n ^ 5 + 73814 / 2835 * n ^ 6 + 98738 / 14175 * n ^ 7.
Definition cf4 (n : R) : R := 4279 / 630 * n ^ 4 - 332 / 35 * n ^ 5 - 399572 / 14175 * n ^ 6 + 11763988 / 155925 * n ^ 7.
Definition cf5 (n : R) : R := 4174 / 315 * n ^ 5 - 144838 / 6237 * n ^ 6 - 2046082 / 31185 * n ^ 7.
Definition cf6 (n : R) : R := 601676 / 22275 * n ^ 6 - 115444544 / 2027025 * n ^ 7.
Definition cf7 (n : R) : R := 38341552 / 675675 * n ^ 7.
Definition conf (n : R) : coefs := mkc (cf1 n) (cf2 n) (cf3 n) (cf4 n) (cf5 n) (cf6 n) (cf7 n).
Ltac unc := cbv zeta; unfold brk, dsum, vsum, conf, rad2, cf1, cf2, cf3, cf4, cf5, cf6, cf7; cbn [k1 k2 k3 k4 k5 k6 k7]; cbv zeta.
Lemma conf_res n c th th' : 0 <= n <= 1 / 19 -> Rabs c <= 1 -> Rabs th <= 1 -> Rabs th' <= 1 ->
  let B := brk c (vsum (conf n) c) th th' in
  Rabs ((1 - n) ^ 2 * dsum (conf n) c - B * rad2 n ((1 + c) * B ^ 2 - 1)) <= 10200 * n ^ 6.
Proof. cbv zeta. intros. unc. tm_le [n; c; th; th'] (1#19)%Q 9%nat 6%nat (10200#1)%Q; try assumption. Qed.
Lemma conf_brk n c th th' : 0 <= n <= 1 / 19 -> Rabs c <= 1 -> Rabs th <= 1 -> Rabs th' <= 1 ->
  Rabs (brk c (vsum (conf n) c) th th' - 1 + 2 * n * (1 - c)) <= 1845 / 100 * n ^ 2.
Proof. intros. unc. tm_le [n; c; th; th'] (1#19)%Q 5%nat 2%nat (1845#100)%Q; try assumption. Qed.
Lemma conf_v n c : 0 <= n <= 1 / 19 -> Rabs c <= 1 -> Rabs (vsum (conf n) c - 2 * n) <= 702 / 100 * n ^ 2.
Proof. intros. unc. tm_le [n; c] (1#19)%Q 8%nat 2%nat (702#100)%Q; try assumption. Qed.
Lemma conf_d n c : 0 <= n <= 1 / 19 -> Rabs c <= 1 -> Rabs (dsum (conf n) c - 1 - 4 * n * c) <= 4355 / 100 * n ^ 2.
Proof. intros. unc. tm_le [n; c] (1#19)%Q 8%nat 2%nat (4355#100)%Q; try assumption. Qed.
(** ** the code's coefficients, in t = e ^ 2 *)
Definition acode (t : R) : coefs := mkc (- (t / 3 + 31 * t ^ 2 / 180 + 59 * t ^ 3 / 560)) (17 * t ^ 2 / 360 + 61 * t ^ 3 / 1260) (- (383 * t ^ 3 / 45360)) 0 0 0 0.
Definition aicode (t : R) : coefs := mkc (t / 3 + 31 * t ^ 2 / 180 + 517 * t ^ 3 / 5040) (23 * t ^ 2 / 360 + 251 * t ^ 3 / 3780) (761 * t ^ 3 / 45360) 0 0 0 0.
Definition ccode (t : R) : coefs := mkc (t / 2 + 5 * t ^ 2 / 24 + t ^ 3 / 12 + 13 * t ^ 4 / 360) (7 * t ^ 2 / 48 + 29 * t ^ 3 / 240 + 811 * t ^ 4 / 11520)
  (7 * t ^ 3 / 120 + 81 * t ^ 4 / 1120) (4279 * t ^ 4 / 161280) 0 0 0.
Definition tn (n th : R) : R := 4 * n * (1 - 2 * n + 3 * n ^ 2 - 4 * n ^ 3 + 5 * n ^ 4 - 6 * th * n ^ 5).
Lemma tn_ex n : 0 <= n <= 1 / 19 -> exists th, Rabs th <= 1 /\ 4 * n / (1 + n) ^ 2 = tn n th.
Proof.
  intros Hn. exists ((1 + 5 / 6 * n) / (1 + n) ^ 2). assert (P : 1 <= (1 + n) ^ 2) by nra. split.
  - rewrite Rabs_right. apply Rmult_le_reg_r with ((1 + n) ^ 2); [lra|]. unfold Rdiv at 1. rewrite Rmult_assoc, Rinv_l, Rmult_1_r by lra. nra.
    apply Rle_ge, Rmult_le_pos; [lra|apply Rlt_le, Rinv_0_lt_compat; lra].
  - unfold tn. field. lra.
Qed.
Lemma d_auth1 n th : 0 <= n <= 1 / 19 -> Rabs th <= 1 -> Rabs (k1 (acode (tn n th)) - k1 (auth n) - (85622 / 4725) * n ^ 4) <= 11078 / 100 * n ^ 5.
Proof. intros Hn Ht. unfold acode, auth, authi, conf, tn; cbn [k1 k2 k3 k4 k5 k6 k7]; unfold au1, au2, au3, au4, au5, au6, ai1, ai2, ai3, ai4, ai5, ai6, cf1, cf2, cf3, cf4, cf5, cf6, cf7. tm_le [n; th] (1#19)%Q 10%nat 5%nat (11078#100)%Q; try assumption. Qed.
Lemma d_auth2 n th : 0 <= n <= 1 / 19 -> Rabs th <= 1 -> Rabs (k2 (acode (tn n th)) - k2 (auth n) - (-153938 / 14175) * n ^ 4) <= 5891 / 100 * n ^ 5.
Proof. intros Hn Ht. unfold acode, auth, authi, conf, tn; cbn [k1 k2 k3 k4 k5 k6 k7]; unfold au1, au2, au3, au4, au5, au6, ai1, ai2, ai3, ai4, ai5, ai6, cf1, cf2, cf3, cf4, cf5, cf6, cf7. tm_le [n; th] (1#19)%Q 10%nat 5%nat (5891#100)%Q; try assumption. Qed.
Lemma d_auth3 n th : 0 <= n <= 1 / 19 -> Rabs th <= 1 -> Rabs (k3 (acode (tn n th)) - k3 (auth n) - (6694 / 2025) * n ^ 4) <= 1327 / 100 * n ^ 5.
Proof. intros Hn Ht. unfold acode, auth, authi, conf, tn; cbn [k1 k2 k3 k4 k5 k6 k7]; unfold au1, au2, au3, au4, au5, au6, ai1, ai2, ai3, ai4, ai5, ai6, cf1, cf2, cf3, cf4, cf5, cf6, cf7. tm_le [n; th] (1#19)%Q 10%nat 5%nat (1327#100)%Q; try assumption. Qed.
Lemma d_auth4 n th : 0 <= n <= 1 / 19 -> Rabs th <= 1 -> Rabs (k4 (acode (tn n th)) - k4 (auth n) - (-6007 / 14175) * n ^ 4) <= 6 / 100 * n ^ 5.
Proof. intros Hn Ht. unfold acode, auth, authi, conf, tn; cbn [k1 k2 k3 k4 k5 k6 k7]; unfold au1, au2, au3, au4, au5, au6, ai1, ai2, ai3, ai4, ai5, ai6, cf1, cf2, cf3, cf4, cf5, cf6, cf7. tm_le [n; th] (1#19)%Q 10%nat 5%nat (6#100)%Q; try assumption. Qed.
Lemma d_auth5 n th : 0 <= n <= 1 / 19 -> Rabs th <= 1 -> Rabs (k5 (acode (tn n th)) - k5 (auth n) - (0) * n ^ 4) <= 36 / 100 * n ^ 5.
Proof. intros Hn Ht. unfold acode, auth, authi, conf, tn; cbn [k1 k2 k3 k4 k5 k6 k7]; unfold au1, au2, au3, au4, au5, au6, ai1, ai2, ai3, ai4, ai5, ai6, cf1, cf2, cf3, cf4, cf5, cf6, cf7. tm_le [n; th] (1#19)%Q 10%nat 5%nat (36#100)%Q; try assumption. Qed.
Lemma d_auth6 n th : 0 <= n <= 1 / 19 -> Rabs th <= 1 -> Rabs (k6 (acode (tn n th)) - k6 (auth n) - (0) * n ^ 4) <= 2 / 100 * n ^ 5.
Proof. intros Hn Ht. unfold acode, auth, authi, conf, tn; cbn [k1 k2 k3 k4 k5 k6 k7]; unfold au1, au2, au3, au4, au5, au6, ai1, ai2, ai3, ai4, ai5, ai6, cf1, cf2, cf3, cf4, cf5, cf6, cf7. tm_le [n; th] (1#19)%Q 10%nat 5%nat (2#100)%Q; try assumption. Qed.
Lemma d_authi1 n th : 0 <= n <= 1 / 19 -> Rabs th <= 1 -> Rabs (k1 (aicode (tn n th)) - k1 (authi n) - (-240778 / 14175) * n ^ 4) <= 10628 / 100 * n ^ 5.
Proof. intros Hn Ht. unfold aicode, auth, authi, conf, tn; cbn [k1 k2 k3 k4 k5 k6 k7]; unfold au1, au2, au3, au4, au5, au6, ai1, ai2, ai3, ai4, ai5, ai6, cf1, cf2, cf3, cf4, cf5, cf6, cf7. tm_le [n; th] (1#19)%Q 10%nat 5%nat (10628#100)%Q; try assumption. Qed.
Lemma d_authi2 n th : 0 <= n <= 1 / 19 -> Rabs th <= 1 -> Rabs (k2 (aicode (tn n th)) - k2 (authi n) - (-204574 / 14175) * n ^ 4) <= 8143 / 100 * n ^ 5.
Proof. intros Hn Ht. unfold aicode, auth, authi, conf, tn; cbn [k1 k2 k3 k4 k5 k6 k7]; unfold au1, au2, au3, au4, au5, au6, ai1, ai2, ai3, ai4, ai5, ai6, cf1, cf2, cf3, cf4, cf5, cf6, cf7. tm_le [n; th] (1#19)%Q 10%nat 5%nat (8143#100)%Q; try assumption. Qed.
Lemma d_authi3 n th : 0 <= n <= 1 / 19 -> Rabs th <= 1 -> Rabs (k3 (aicode (tn n th)) - k3 (authi n) - (-95122 / 14175) * n ^ 4) <= 2751 / 100 * n ^ 5.
Proof. intros Hn Ht. unfold aicode, auth, authi, conf, tn; cbn [k1 k2 k3 k4 k5 k6 k7]; unfold au1, au2, au3, au4, au5, au6, ai1, ai2, ai3, ai4, ai5, ai6, cf1, cf2, cf3, cf4, cf5, cf6, cf7. tm_le [n; th] (1#19)%Q 10%nat 5%nat (2751#100)%Q; try assumption. Qed.
Lemma d_authi4 n th : 0 <= n <= 1 / 19 -> Rabs th <= 1 -> Rabs (k4 (aicode (tn n th)) - k4 (authi n) - (-6059 / 4725) * n ^ 4) <= 57 / 100 * n ^ 5.
Proof. intros Hn Ht. unfold aicode, auth, authi, conf, tn; cbn [k1 k2 k3 k4 k5 k6 k7]; unfold au1, au2, au3, au4, au5, au6, ai1, ai2, ai3, ai4, ai5, ai6, cf1, cf2, cf3, cf4, cf5, cf6, cf7. tm_le [n; th] (1#19)%Q 10%nat 5%nat (57#100)%Q; try assumption. Qed.
Lemma d_authi5 n th : 0 <= n <= 1 / 19 -> Rabs th <= 1 -> Rabs (k5 (aicode (tn n th)) - k5 (authi n) - (0) * n ^ 4) <= 168 / 100 * n ^ 5.
Proof. intros Hn Ht. unfold aicode, auth, authi, conf, tn; cbn [k1 k2 k3 k4 k5 k6 k7]; unfold au1, au2, au3, au4, au5, au6, ai1, ai2, ai3, ai4, ai5, ai6, cf1, cf2, cf3, cf4, cf5, cf6, cf7. tm_le [n; th] (1#19)%Q 10%nat 5%nat (168#100)%Q; try assumption. Qed.
Lemma d_authi6 n th : 0 <= n <= 1 / 19 -> Rabs th <= 1 -> Rabs (k6 (aicode (tn n th)) - k6 (authi n) - (0) * n ^ 4) <= 12 / 100 * n ^ 5.
Proof. intros Hn Ht. unfold aicode, auth, authi, conf, tn; cbn [k1 k2 k3 k4 k5 k6 k7]; unfold au1, au2, au3, au4, au5, au6, ai1, ai2, ai3, ai4, ai5, ai6, cf1, cf2, cf3, cf4, cf5, cf6, cf7. tm_le [n; th] (1#19)%Q 10%nat 5%nat (12#100)%Q; try assumption. Qed.
Lemma d_conf1 n th : 0 <= n <= 1 / 19 -> Rabs th <= 1 -> Rabs (k1 (ccode (tn n th)) - k1 (conf n) - (-96 / 5) * n ^ 5) <= 20646 / 100 * n ^ 6.
Proof. intros Hn Ht. unfold ccode, auth, authi, conf, tn; cbn [k1 k2 k3 k4 k5 k6 k7]; unfold au1, au2, au3, au4, au5, au6, ai1, ai2, ai3, ai4, ai5, ai6, cf1, cf2, cf3, cf4, cf5, cf6, cf7. tm_le [n; th] (1#19)%Q 10%nat 6%nat (20646#100)%Q; try assumption. Qed.
Lemma d_conf2 n th : 0 <= n <= 1 / 19 -> Rabs th <= 1 -> Rabs (k2 (ccode (tn n th)) - k2 (conf n) - (-1296 / 35) * n ^ 5) <= 37724 / 100 * n ^ 6.
Proof. intros Hn Ht. unfold ccode, auth, authi, conf, tn; cbn [k1 k2 k3 k4 k5 k6 k7]; unfold au1, au2, au3, au4, au5, au6, ai1, ai2, ai3, ai4, ai5, ai6, cf1, cf2, cf3, cf4, cf5, cf6, cf7. tm_le [n; th] (1#19)%Q 10%nat 6%nat (37724#100)%Q; try assumption. Qed.
Lemma d_conf3 n th : 0 <= n <= 1 / 19 -> Rabs th <= 1 -> Rabs (k3 (ccode (tn n th)) - k3 (conf n) - (-6058 / 105) * n ^ 5) <= 54083 / 100 * n ^ 6.
Proof. intros Hn Ht. unfold ccode, auth, authi, conf, tn; cbn [k1 k2 k3 k4 k5 k6 k7]; unfold au1, au2, au3, au4, au5, au6, ai1, ai2, ai3, ai4, ai5, ai6, cf1, cf2, cf3, cf4, cf5, cf6, cf7. tm_le [n; th] (1#19)%Q 10%nat 6%nat (54083#100)%Q; try assumption. Qed.
Lemma d_conf4 n th : 0 <= n <= 1 / 19 -> Rabs th <= 1 -> Rabs (k4 (ccode (tn n th)) - k4 (conf n) - (-14128 / 315) * n ^ 5) <= 32667 / 100 * n ^ 6.
Proof. intros Hn Ht. unfold ccode, auth, authi, conf, tn; cbn [k1 k2 k3 k4 k5 k6 k7]; unfold au1, au2, au3, au4, au5, au6, ai1, ai2, ai3, ai4, ai5, ai6, cf1, cf2, cf3, cf4, cf5, cf6, cf7. tm_le [n; th] (1#19)%Q 10%nat 6%nat (32667#100)%Q; try assumption. Qed.
Lemma d_conf5 n th : 0 <= n <= 1 / 19 -> Rabs th <= 1 -> Rabs (k5 (ccode (tn n th)) - k5 (conf n) - (-4174 / 315) * n ^ 5) <= 2668 / 100 * n ^ 6.
Proof. intros Hn Ht. unfold ccode, auth, authi, conf, tn; cbn [k1 k2 k3 k4 k5 k6 k7]; unfold au1, au2, au3, au4, au5, au6, ai1, ai2, ai3, ai4, ai5, ai6, cf1, cf2, cf3, cf4, cf5, cf6, cf7. tm_le [n; th] (1#19)%Q 10%nat 6%nat (2668#100)%Q; try assumption. Qed.
Lemma d_conf6 n th : 0 <= n <= 1 / 19 -> Rabs th <= 1 -> Rabs (k6 (ccode (tn n th)) - k6 (conf n) - (0) * n ^ 5) <= 3001 / 100 * n ^ 6.
Proof. intros Hn Ht. unfold ccode, auth, authi, conf, tn; cbn [k1 k2 k3 k4 k5 k6 k7]; unfold au1, au2, au3, au4, au5, au6, ai1, ai2, ai3, ai4, ai5, ai6, cf1, cf2, cf3, cf4, cf5, cf6, cf7. tm_le [n; th] (1#19)%Q 10%nat 6%nat (3001#100)%Q; try assumption. Qed.
Lemma d_conf7 n th : 0 <= n <= 1 / 19 -> Rabs th <= 1 -> Rabs (k7 (ccode (tn n th)) - k7 (conf n) - (0) * n ^ 5) <= 299 / 100 * n ^ 6.
Proof. intros Hn Ht. unfold ccode, auth, authi, conf, tn; cbn [k1 k2 k3 k4 k5 k6 k7]; unfold au1, au2, au3, au4, au5, au6, ai1, ai2, ai3, ai4, ai5, ai6, cf1, cf2, cf3, cf4, cf5, cf6, cf7. tm_le [n; th] (1#19)%Q 10%nat 6%nat (299#100)%Q; try assumption. Qed.

Section Codes.
Variable n : R.
Hypothesis Hn : 0 <= n <= 1 / 19.
Let t := 4 * n / (1 + n) ^ 2.
Lemma np k : 0 <= n ^ k. Proof. apply pow_le. lra. Qed.
Lemma lead d l a K : Rabs (d - l) <= K -> Rabs l <= a -> Rabs d <= a + K.
Proof. intros A B. replace d with (l + (d - l)) by ring. eapply Rle_trans; [apply Rabs_triang|]. lra. Qed.
Lemma absc q m : Rabs (q * n ^ m) = Rabs q * n ^ m.
Proof. rewrite Rabs_mult, (Rabs_right (n ^ m)) by (apply Rle_ge, np). reflexivity. Qed.
Ltac leads H L := pose proof (lead _ _ _ _ H (Req_le _ _ (absc _ L))).
Theorem acode_close x : Rabs (ssum (acode t) x - ssum (auth n) x) <= n ^ 4 * (328 / 10 + 184 * n).
Proof.
  destruct (tn_ex n Hn) as (th & T & E). fold t in E. rewrite E. rewrite ssum_sub. eapply Rle_trans; [apply del_bound|]. unfold csub; cbn [k1 k2 k3 k4 k5 k6 k7].
  pose proof (d_auth1 n th Hn T) as H1. pose proof (d_auth2 n th Hn T) as H2. pose proof (d_auth3 n th Hn T) as H3. pose proof (d_auth4 n th Hn T) as H4. pose proof (d_auth5 n th Hn T) as H5. pose proof (d_auth6 n th Hn T) as H6.
  leads H1 4%nat. leads H2 4%nat. leads H3 4%nat. leads H4 4%nat. leads H5 4%nat. leads H6 4%nat. 
  assert (K7 : Rabs (k7 (acode (tn n th)) - k7 (auth n)) = 0) by (cbn [k7 acode auth]; rewrite Rminus_0_r; apply Rabs_R0). unfold acode, auth in *; cbn [k1 k2 k3 k4 k5 k6 k7] in *. rewrite K7.
  rewrite ?(Rabs_right (85622 / 4725)), ?(Rabs_left (-153938 / 14175)), ?(Rabs_right (6694 / 2025)), ?(Rabs_left (-6007 / 14175)), ?Rabs_R0 in * by lra. clear H1 H2 H3 H4 H5 H6.
  pose proof (np 4). pose proof (np 5). replace (n ^ 4 * (328 / 10 + 184 * n)) with (328 / 10 * n ^ 4 + 184 * n ^ 5) by ring. lra.
Qed.
Theorem aicode_close x : Rabs (ssum (aicode t) x - ssum (authi n) x) <= n ^ 4 * (395 / 10 + 219 * n).
Proof.
  destruct (tn_ex n Hn) as (th & T & E). fold t in E. rewrite E. rewrite ssum_sub. eapply Rle_trans; [apply del_bound|]. unfold csub; cbn [k1 k2 k3 k4 k5 k6 k7].
  pose proof (d_authi1 n th Hn T) as H1. pose proof (d_authi2 n th Hn T) as H2. pose proof (d_authi3 n th Hn T) as H3. pose proof (d_authi4 n th Hn T) as H4. pose proof (d_authi5 n th Hn T) as H5. pose proof (d_authi6 n th Hn T) as H6.
  leads H1 4%nat. leads H2 4%nat. leads H3 4%nat. leads H4 4%nat. leads H5 4%nat. leads H6 4%nat. 
  assert (K7 : Rabs (k7 (aicode (tn n th)) - k7 (authi n)) = 0) by (cbn [k7 aicode authi]; rewrite Rminus_0_r; apply Rabs_R0). unfold aicode, authi in *; cbn [k1 k2 k3 k4 k5 k6 k7] in *. rewrite K7.
  rewrite ?(Rabs_left (-240778 / 14175)), ?(Rabs_left (-204574 / 14175)), ?(Rabs_left (-95122 / 14175)), ?(Rabs_left (-6059 / 4725)), ?Rabs_R0 in * by lra. clear H1 H2 H3 H4 H5 H6.
  pose proof (np 4). pose proof (np 5). replace (n ^ 4 * (395 / 10 + 219 * n)) with (395 / 10 * n ^ 4 + 219 * n ^ 5) by ring. lra.
Qed.
Theorem ccode_close x : Rabs (ssum (ccode t) x - ssum (conf n) x) <= n ^ 5 * (1721 / 10 + 1512 * n).
Proof.
  destruct (tn_ex n Hn) as (th & T & E). fold t in E. rewrite E. rewrite ssum_sub. eapply Rle_trans; [apply del_bound|]. unfold csub; cbn [k1 k2 k3 k4 k5 k6 k7].
  pose proof (d_conf1 n th Hn T) as H1. pose proof (d_conf2 n th Hn T) as H2. pose proof (d_conf3 n th Hn T) as H3. pose proof (d_conf4 n th Hn T) as H4. pose proof (d_conf5 n th Hn T) as H5. pose proof (d_conf6 n th Hn T) as H6. pose proof (d_conf7 n th Hn T) as H7.
  leads H1 5%nat. leads H2 5%nat. leads H3 5%nat. leads H4 5%nat. leads H5 5%nat. leads H6 5%nat. leads H7 5%nat. 
  unfold ccode, conf in *; cbn [k1 k2 k3 k4 k5 k6 k7] in *.
  rewrite ?(Rabs_left (-96 / 5)), ?(Rabs_left (-1296 / 35)), ?(Rabs_left (-6058 / 105)), ?(Rabs_left (-14128 / 315)), ?(Rabs_left (-4174 / 315)), ?Rabs_R0 in * by lra. clear H1 H2 H3 H4 H5 H6 H7.
  pose proof (np 5). pose proof (np 6). replace (n ^ 5 * (1721 / 10 + 1512 * n)) with (1721 / 10 * n ^ 5 + 1512 * n ^ 6) by ring. lra.
Qed.
End Codes.
