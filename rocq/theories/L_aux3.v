(** The authalic-latitude series against the area integral. *)
From Coq Require Import QArith List Reals Lra Lia Psatz.
Import ListNotations.
From Coquelicot Require Import Coquelicot.
From Verif Require Import PyMath L_PyMath L_poly L_series1 L_series2 L_aux1 L_aux2.
Open Scope R_scope.

Definition au1 (n : R) : R := 0 - 4 / 3 * n ^ 1 - 4 / 45 * n ^ 2 + 88 / 315 * n ^ 3 + 538 / 4725 * n ^ 4 + 20824 / 467775 * n ^ 5 - 44732 / 2837835 * n ^ 6.
Definition au2 (n : R) : R := 34 / 45 * n ^ 2 + 8 / 105 * n ^ 3 - 2482 / 14175 * n ^ 4 - 37192 / 467775 * n ^ 5 - 12467764 / 212837625 * n ^ 6.
Definition au3 (n : R) : R := 0 - 1532 / 2835 * n ^ 3 - 898 / 14175 * n ^ 4 + 54968 / 467775 * n ^ 5 + 100320856 / 1915538625 * n ^ 6.
Definition au4 (n : R) : R := 6007 / 14175 * n ^ 4 + 24496 / 467775 * n ^ 5 - 5884124 / 70945875 * n ^ 6.
Definition au5 (n : R) : R := 0 - 23356 / 66825 * n ^ 5 - 839792 / 19348875 * n ^ 6.
Definition au6 (n : R) : R := 570284222 / 1915538625 * n ^ 6.
Definition ai1 (n : R) : R := 4 / 3 * n ^ 1 + 4 / 45 * n ^ 2 - 16 / 35 * n ^ 3 - 2582 / 14175 * n ^ 4 + 60136 / 467775 * n ^ 5 + 28112932 / 212837625 * n ^ 6.
Definition ai2 (n : R) : R := 46 / 45 * n ^ 2 + 152 / 945 * n ^ 3 - 11966 / 14175 * n ^ 4 - 21016 / 51975 * n ^ 5 + 251310128 / 638512875 * n ^ 6.
Definition ai3 (n : R) : R := 3044 / 2835 * n ^ 3 + 3802 / 14175 * n ^ 4 - 94388 / 66825 * n ^ 5 - 8797648 / 10945935 * n ^ 6.
Definition ai4 (n : R) : R := 6059 / 4725 * n ^ 4 + 41072 / 93555 * n ^ 5 - 1472637812 / 638512875 * n ^ 6.
Definition ai5 (n : R) : R := 768272 / 467775 * n ^ 5 + 455935736 / 638512875 * n ^ 6.
Definition ai6 (n : R) : R := 4210684958 / 1915538625 * n ^ 6.
Definition kap (n : R) : R := 1 + 4 / 3 * n - 82 / 45 * n ^ 2 - 2836 / 945 * n ^ 3 + 5983 / 14175 * n ^ 4 + 929792 / 467775 * n ^ 5 + 432062464 / 638512875 * n ^ 6.
Definition auth (n : R) : coefs := mkc (au1 n) (au2 n) (au3 n) (au4 n) (au5 n) (au6 n) 0.
Definition authi (n : R) : coefs := mkc (ai1 n) (ai2 n) (ai3 n) (ai4 n) (ai5 n) (ai6 n) 0.
(** cos (x + del) / cos x *)
Definition brk (c v th th' : R) : R := let z := (1 - c ^ 2) * v ^ 2 in
  1 - z / 2 + z ^ 2 / 24 - th * z ^ 3 / 720 - (1 - c) * v * (1 - z / 6 + z ^ 2 / 120 - th' * z ^ 3 / 5040).
Ltac una := cbv zeta; unfold brk, dsum, vsum, auth, authi, kap, rad2, au1, au2, au3, au4, au5, au6, ai1, ai2, ai3, ai4, ai5, ai6; cbn [k1 k2 k3 k4 k5 k6 k7]; cbv zeta.
Lemma auth_res n c th th' : 0 <= n <= 1 / 19 -> Rabs c <= 1 -> Rabs th <= 1 -> Rabs th' <= 1 ->
  Rabs (brk c (vsum (auth n) c) th th' * dsum (auth n) c * rad2 n c ^ 2 - kap n) <= 124 * n ^ 6.
Proof. intros. una. tm_le [n; c; th; th'] (1#19)%Q 9%nat 6%nat (124#1)%Q; try assumption. Qed.
Lemma authi_res n c th th' : 0 <= n <= 1 / 19 -> Rabs c <= 1 -> Rabs th <= 1 -> Rabs th' <= 1 ->
  let B := brk c (vsum (authi n) c) th th' in
  Rabs (kap n * B * dsum (authi n) c - rad2 n ((1 + c) * B ^ 2 - 1) ^ 2) <= 1523 * n ^ 6.
Proof. cbv zeta. intros. una. tm_le [n; c; th; th'] (1#19)%Q 9%nat 6%nat (1523#1)%Q; try assumption. Qed.
Lemma auth_dsum n c : 0 <= n <= 1 / 19 -> Rabs c <= 1 -> 78 / 100 <= dsum (auth n) c <= 13 / 10 /\ 0 <= dsum (authi n) c <= 13 / 10.
Proof.
  intros Hn Hc.
  assert (H : Rabs (dsum (auth n) c - 1) <= 4 * n ^ 1) by (una; tm_le [n; c] (1#19)%Q 8%nat 1%nat (4#1)%Q; try assumption).
  assert (H' : Rabs (dsum (authi n) c - 1) <= 5 * n ^ 1) by (una; tm_le [n; c] (1#19)%Q 8%nat 1%nat (5#1)%Q; try assumption).
  apply Rabs_le_between in H. apply Rabs_le_between in H'. lra.
Qed.
Lemma kap_pos n : 0 <= n <= 1 / 19 -> 1 <= kap n.
Proof.
  intros Hn. assert (H : Rabs (kap n - 1 - 4 / 3 * n) <= 3 * n ^ 2) by (unfold kap; tm_le (n :: nil) (1#19)%Q 8%nat 2%nat (3#1)%Q; try assumption).
  apply Rabs_le_between in H. nra.
Qed.
(** cos of a series *)
Lemma cos_ssum h x : exists th th', Rabs th <= 1 /\ Rabs th' <= 1 /\ cos (ssum h x) = cos x * brk (cos (2 * x)) (vsum h (cos (2 * x))) th th'.
Proof.
  unfold ssum, brk. cbv zeta. rewrite del_v. set (c := cos (2 * x)). set (v := vsum h c).
  destruct (cos_taylor (sin (2 * x) * v)) as (th & T & C). destruct (sin_taylor (sin (2 * x) * v)) as (th' & T' & C').
  exists th, th'. split; [exact T|split; [exact T'|]]. rewrite cos_plus, C, C'. 
  assert (Z2 : (sin (2 * x) * v) ^ 2 = (1 - c ^ 2) * v ^ 2). { assert (S : sin (2 * x) ^ 2 = 1 - c ^ 2) by (unfold c; pose proof (sc1 (2 * x)); nra). rewrite <- S. ring. }
  replace ((sin (2 * x) * v) ^ 4) with (((sin (2 * x) * v) ^ 2) ^ 2) by ring. replace ((sin (2 * x) * v) ^ 6) with (((sin (2 * x) * v) ^ 2) ^ 3) by ring. rewrite Z2.
  set (z := (1 - c ^ 2) * v ^ 2). rewrite sin_2a. replace (1 - c) with (2 * sin x ^ 2) by (unfold c; rewrite cos_2a_sin; ring). ring.
Qed.
(** monotonicity and relative closeness on an interval *)
Lemma incr_on f df lo hi x y : (forall t, is_derive f t (df t)) -> (forall t, lo <= t <= hi -> 0 <= df t) -> lo <= x -> x <= y -> y <= hi -> f x <= f y.
Proof.
  intros D P L H U. destruct (MVT_gen f x y df) as (c & Hc & E).
  - intros t _. apply D.
  - intros t _. apply derivable_continuous_pt. exists (df t). apply is_derive_Reals. apply D.
  - rewrite Rmin_left, Rmax_right in Hc by lra. assert (0 <= df c) by (apply P; lra). nra.
Qed.
Lemma rel_on F G f g e lo hi x y : (forall t, is_derive F t (f t)) -> (forall t, is_derive G t (g t)) ->
  (forall t, lo <= t <= hi -> Rabs (f t - g t) <= e * g t) -> lo <= x -> x <= y -> y <= hi -> Rabs ((F y - F x) - (G y - G x)) <= e * (G y - G x).
Proof.
  intros DF DG H L Hxy U.
  assert (A : e * G x - (F x - G x) <= e * G y - (F y - G y)).
  { apply (incr_on (fun t => e * G t - (F t - G t)) (fun t => e * g t - (f t - g t)) lo hi); try assumption.
    - intros t. apply is_derive_Reals. apply derivable_pt_lim_minus; [apply derivable_pt_lim_scal|apply derivable_pt_lim_minus]; apply is_derive_Reals; auto.
    - intros t Ht. pose proof (H t Ht) as Q. apply Rabs_le_between in Q. lra. }
  assert (B : e * G x + (F x - G x) <= e * G y + (F y - G y)).
  { apply (incr_on (fun t => e * G t + (F t - G t)) (fun t => e * g t + (f t - g t)) lo hi); try assumption.
    - intros t. apply is_derive_Reals. apply derivable_pt_lim_plus; [apply derivable_pt_lim_scal|apply derivable_pt_lim_minus]; apply is_derive_Reals; auto.
    - intros t Ht. pose proof (H t Ht) as Q. apply Rabs_le_between in Q. lra. }
  apply Rabs_le. lra.
Qed.
(** angles from their versed sines *)
Lemma sin_close z x e : 0 <= z <= PI / 2 -> 0 <= x <= PI / 2 -> 0 <= e -> Rabs ((1 - sin z) - (1 - sin x)) <= e * (1 - sin x) -> Rabs (z - x) <= 21 / 10 * e.
Proof.
  intros Hz Hx He H. pose (u := (PI / 2 - z) / 2). pose (w := (PI / 2 - x) / 2). pose proof PI_RGT_0 as P.
  assert (V : forall t, 1 - sin t = 2 * sin ((PI / 2 - t) / 2) ^ 2).
  { intros t. assert (E : sin t = cos (2 * ((PI / 2 - t) / 2))) by (rewrite <- cos_shift; f_equal; field). rewrite E, cos_2a_sin. ring. }
  rewrite (V z), (V x) in H. fold u w in H. replace (z - x) with (- (2 * (u - w))) by (unfold u, w; field). rewrite Rabs_Ropp, Rabs_mult, (Rabs_right 2) by lra.
  assert (Hu : 0 <= u <= PI / 4) by (unfold u; lra). assert (Hw : 0 <= w <= PI / 4) by (unfold w; lra).
  assert (S4 : forall t, 0 <= t <= PI / 4 -> 0 <= sin t <= 71 / 100 /\ 7 / 10 <= cos t).
  { intros t Ht. assert (Q : sin (PI / 4) <= 71 / 100 /\ 7 / 10 <= cos (PI / 4)).
    { rewrite sin_PI4, cos_PI4. assert (R2 : sqrt 2 * sqrt 2 = 2) by (apply sqrt_sqrt; lra). pose proof (sqrt_pos 2). assert (S2 : 141 / 100 <= sqrt 2 <= 142 / 100) by nra.
      split; apply Rmult_le_reg_r with (sqrt 2); try lra; replace (1 / sqrt 2 * sqrt 2) with 1 by (field; lra); nra. }
    repeat split; [apply sin_ge_0; lra| |].
    - eapply Rle_trans; [|apply Q]. apply sin_incr_1; lra.
    - eapply Rle_trans; [apply Q|]. apply cos_decr_1; lra. }
  destruct (S4 u Hu) as [U1 U2]. destruct (S4 w Hw) as [W1 W2].
  assert (K : Rabs (sin u - sin w) <= e * sin w).
  { replace (2 * sin u ^ 2 - 2 * sin w ^ 2) with (2 * ((sin u - sin w) * (sin u + sin w))) in H by ring. rewrite !Rabs_mult, (Rabs_right 2), (Rabs_right (sin u + sin w)) in H by lra.
    destruct (Req_dec (sin w) 0) as [E|E].
    - rewrite E in *. assert (Su : Rabs (sin u - 0) * sin u <= 0) by (replace (sin u + 0) with (sin u) in H by ring; lra). rewrite Rminus_0_r, Rabs_right in * by lra. nra.
    - apply Rmult_le_reg_r with (sin w); [lra|]. pose proof (Rabs_pos (sin u - sin w)). assert (Rabs (sin u - sin w) * sin w <= Rabs (sin u - sin w) * (sin u + sin w)) by (apply Rmult_le_compat_l; lra). nra. }
  destruct (MVT_gen sin w u cos) as (t & Ht & E).
  - intros t _. auto_derive; [exact I|ring].
  - intros t _. apply continuity_sin.
  - assert (Ct : 7 / 10 <= cos t). { apply S4. unfold Rmin, Rmax in Ht. destruct (Rle_dec w u); lra. }
    rewrite E, Rabs_mult, (Rabs_right (cos t)) in K by lra. pose proof (Rabs_pos (u - w)). nra.
Qed.
