(** Accuracy of the code's auxiliary latitudes, in radians. *)
From Coq Require Import QArith List Reals Lra Lia Psatz.
Import ListNotations.
From Coquelicot Require Import Coquelicot.
From Verif Require Import PyMath L_PyMath M_ellipsoid M_ecef M_rcurve M_rsphere M_latitude M_lox Spec Spec_geodesic Spec_aux L_ell L_aer L_rcurve L_latitude L_poly L_series1 L_aux1 L_aux2 L_aux3 L_aux4 L_aux5 L_aux6 L_aux7.
From Verif Require L_latitude2 L_latitude3 L_lox.
Open Scope R_scope.

(** the rectifying radius *)
Section Rho.
Variable n : R.
Hypothesis Hn : 0 <= n <= 1 / 19.
Lemma cube_le x y : 0 <= x -> 0 <= y -> x ^ 3 <= y ^ 3 -> x <= y.
Proof. intros Hx Hy E. destruct (Rle_dec x y) as [L|L]; [exact L|]. exfalso. assert (y * y < x * x) by nra. nra. Qed.
Lemma rho_close r y : 0 <= r -> 0 <= y -> y ^ 2 = 1 - n ^ 2 -> r ^ 3 = (1 + 3 * n ^ 2 + y ^ 3) / 2 -> 0 <= r - (1 + n ^ 2 / 4) <= n ^ 6 / 180.
Proof.
  intros Hr Hy Ey Er. set (u := n ^ 2) in *. assert (Hu : 0 <= u <= 1 / 361) by (unfold u; split; [apply pow2_ge_0|nra]).
  replace (n ^ 6) with (u ^ 3) by (unfold u; ring).
  set (z := 1 - 3 / 2 * u + 3 / 8 * u ^ 2 + 1 / 16 * u ^ 3). 
  assert (U2 : 0 <= u ^ 2 <= 1 / 100000) by (split; [apply pow_le; lra|nra]). assert (U3 : 0 <= u ^ 3 <= u ^ 2 / 361) by (split; [apply pow_le; lra|replace (u ^ 3) with (u ^ 2 * u) by ring; nra]).
  assert (U4 : 0 <= u ^ 4 <= u ^ 3 / 361) by (split; [apply pow_le; lra|replace (u ^ 4) with (u ^ 3 * u) by ring; nra]).
  assert (U5 : 0 <= u ^ 5 <= u ^ 4 / 361) by (split; [apply pow_le; lra|replace (u ^ 5) with (u ^ 4 * u) by ring; nra]).
  assert (U6 : 0 <= u ^ 6 <= u ^ 5 / 361) by (split; [apply pow_le; lra|replace (u ^ 6) with (u ^ 5 * u) by ring; nra]).
  assert (Z1 : 99 / 100 <= z) by (unfold z; lra).
  assert (Y3 : 0 <= y ^ 3) by (apply pow_le; lra).
  assert (E : (y ^ 3 - z) * (y ^ 3 + z) = 3 / 64 * u ^ 4 - 3 / 64 * u ^ 5 - 1 / 256 * u ^ 6).
  { replace ((y ^ 3 - z) * (y ^ 3 + z)) with ((y ^ 2) ^ 3 - z ^ 2) by ring. rewrite Ey. unfold z. field. }
  assert (D : 0 <= y ^ 3 - z <= u ^ 4 / 20). { clearbody z. clear - E Y3 Z1 U4 U5 U6. set (w := y ^ 3) in *. clearbody w. split; [|nra]. destruct (Rle_dec 0 (w - z)) as [L|L]; [exact L|]. exfalso. nra. }
  set (q := 1 + u / 4). assert (Q : r ^ 3 - q ^ 3 = u ^ 3 / 64 + (y ^ 3 - z) / 2) by (rewrite Er; unfold z, q; field).
  assert (Q1 : 1 <= q) by (unfold q; lra). assert (L : q <= r) by (apply cube_le; lra). split; [lra|].
  assert (F : r ^ 3 - q ^ 3 = (r - q) * (r ^ 2 + r * q + q ^ 2)) by ring. assert (3 <= r ^ 2 + r * q + q ^ 2) by nra. nra.
Qed.
Lemma rho_mean r : 0 <= r - (1 + n ^ 2 / 4) <= n ^ 6 / 180 -> Rabs (r - rmean n) <= n ^ 4 / 64 + n ^ 6 / 256.
Proof. intros R. unfold rmean. assert (0 <= n ^ 4) by (apply pow_le; lra). assert (0 <= n ^ 6) by (apply pow_le; lra). assert (n ^ 6 <= n ^ 4 / 361) by (replace (n ^ 6) with (n ^ 4 * n ^ 2) by ring; apply Rmult_le_compat_l; [lra|]; clear - Hn; nra). apply Rabs_le. lra. Qed.
(** relative error of an arc *)
Definition arc_err : R := n ^ 4 * (1 / 64 + 11 * n + 21 * n ^ 2 + 9000 * n ^ 4).
Lemma arc_err_pos : 0 <= arc_err.
Proof. unfold arc_err. assert (0 <= n ^ 4) by (apply pow_le; lra). assert (0 <= n ^ 2) by (apply pow_le; lra). apply Rmult_le_pos; lra. Qed.
Lemma rho_arc r D E : 0 <= E -> 0 <= r - (1 + n ^ 2 / 4) <= n ^ 6 / 180 -> Rabs (rmean n * D - E) <= rel5 n * E -> Rabs (r * D - E) <= arc_err * E.
Proof.
  intros HE R Q. pose proof (rho_mean r R) as M. pose proof (rmean_pos n Hn) as RM. set (m := rmean n) in *.
  assert (N2 : 0 <= n ^ 2 <= 1 / 361) by (split; [apply pow2_ge_0|clear - Hn; nra]).
  assert (R5 : 0 <= rel5 n <= n ^ 2 / 100).
  { unfold rel5. assert (N3 : 0 <= n ^ 3 <= 1 / 6000) by (split; [apply pow_le; lra|apply Rle_trans with ((1 / 19) ^ 3); [apply pow_incr; lra|simpl; lra]]).
    replace (n ^ 5) with (n ^ 2 * n ^ 3) by ring. rewrite Rmult_assoc. split; [apply Rmult_le_pos; [lra|]; apply Rmult_le_pos; lra|]. unfold Rdiv. apply Rmult_le_compat_l; [lra|].
    apply Rle_trans with (1 / 6000 * (11 + 20 * (1 / 19) + 9000 * (1 / 6000))); [apply Rmult_le_compat; lra|lra]. }
  set (k := r / m). assert (K : r = k * m) by (unfold k; field; lra).
  assert (K1 : Rabs (k - 1) <= n ^ 4 / 64 + n ^ 6 / 256).
  { replace (k - 1) with ((r - m) * / m) by (unfold k; field; lra). rewrite Rabs_mult, (Rabs_right (/ m)) by (apply Rle_ge, Rlt_le, Rinv_0_lt_compat; lra).
    assert (/ m <= 1) by (rewrite <- Rinv_1; apply Rinv_le_contravar; lra). pose proof (Rabs_pos (r - m)). assert (0 < / m) by (apply Rinv_0_lt_compat; lra). nra. }
  replace (r * D - E) with (k * (m * D - E) + (k - 1) * E) by (rewrite K; ring). eapply Rle_trans; [apply Rabs_triang|]. rewrite !Rabs_mult, (Rabs_right E) by lra.
  assert (K2 : Rabs k <= 1 + (n ^ 4 / 64 + n ^ 6 / 256)). { replace k with (1 + (k - 1)) by ring. eapply Rle_trans; [apply Rabs_triang|]. rewrite Rabs_R1. lra. }
  assert (N4 : 0 <= n ^ 4) by (apply pow_le; lra). assert (N6 : 0 <= n ^ 6) by (apply pow_le; lra).
  apply Rle_trans with ((1 + (n ^ 4 / 64 + n ^ 6 / 256)) * (rel5 n * E) + (n ^ 4 / 64 + n ^ 6 / 256) * E).
  { apply Rplus_le_compat; apply Rmult_le_compat; try apply Rabs_pos; try lra. }
  replace (_ + _) with (((1 + (n ^ 4 / 64 + n ^ 6 / 256)) * rel5 n + (n ^ 4 / 64 + n ^ 6 / 256)) * E) by ring. apply Rmult_le_compat_r; [exact HE|].
  assert (X : (n ^ 4 / 64 + n ^ 6 / 256) * rel5 n <= n ^ 6 / 100).
  { apply Rle_trans with (n ^ 4 * (n ^ 2 / 100)); [|replace (n ^ 6) with (n ^ 4 * n ^ 2) by ring; lra]. apply Rmult_le_compat; try lra.
    assert (n ^ 6 <= n ^ 4) by (replace (n ^ 6) with (n ^ 4 * n ^ 2) by ring; rewrite <- (Rmult_1_r (n ^ 4)) at 2; apply Rmult_le_compat_l; lra). lra. }
  rewrite Rmult_plus_distr_r, Rmult_1_l. unfold arc_err.
  replace (n ^ 4 * (1 / 64 + 11 * n + 21 * n ^ 2 + 9000 * n ^ 4)) with (n ^ 4 / 64 + n ^ 6 + n ^ 5 * (11 + 20 * n + 9000 * n ^ 3)) by field. fold (rel5 n). lra.
Qed.
End Rho.
(** lower slope of the code's conformal-to-geodetic series *)
Lemma ccode_d n th c : 0 <= n <= 1 / 19 -> Rabs th <= 1 -> Rabs c <= 1 -> Rabs (dsum (ccode (tn n th)) c - 1 - 4 * n * c) <= 44 * n ^ 2.
Proof. intros. unfold dsum, ccode, tn. cbn [k1 k2 k3 k4 k5 k6 k7]. tm_le [n; c; th] (1#19)%Q 9%nat 2%nat (44#1)%Q; try assumption. Qed.
Lemma steep h m : (forall t, m <= dsum h (cos (2 * t))) -> 0 <= m -> forall x y, m * Rabs (y - x) <= Rabs (ssum h y - ssum h x).
Proof.
  intros Hm M x y. destruct (MVT_gen (ssum h) x y (fun t => dsum h (cos (2 * t)))) as (c & _ & E).
  - intros t _. apply ssum_derive.
  - intros t _. apply derivable_continuous_pt. eexists. apply is_derive_Reals, ssum_derive.
  - rewrite E, Rabs_mult. apply Rmult_le_compat_r; [apply Rabs_pos|]. pose proof (Hm c). rewrite Rabs_right; lra.
Qed.
Lemma ssum_half h x : (forall t, 0 <= dsum h (cos (2 * t))) -> - (PI / 2) <= x <= PI / 2 -> - (PI / 2) <= ssum h x <= PI / 2.
Proof.
  intros Hp Hx. destruct (Rle_dec 0 x) as [L|L].
  - pose proof (ssum_quarter h x Hp ltac:(lra)). pose proof PI_RGT_0. lra.
  - pose proof (ssum_quarter h (- x) Hp ltac:(lra)) as Q. rewrite ssum_opp in Q. pose proof PI_RGT_0. lra.
Qed.

Section E.
Variables (ell : option Ellipsoid) (H : ell_ok ell).
Let a := ell_a ell.
Let b := ell_b ell.
Hypothesis HF : 9 * a <= 10 * b.
Let n := third a b.
Let A := (a + b) / 2.
Let Hn : 0 <= n <= 1 / 19. Proof. exact (n_range ell H HF). Qed.
Let np k : 0 <= n ^ k. Proof. apply pow_le. lra. Qed.
Let mer := mer0 n.
Let DM : forall x, is_derive mer x (mrad n (cos (2 * x))). Proof. exact (mer0_D n Hn). Qed.
Let ZM : mer 0 = 0. Proof. exact (mer0_0 n). Qed.
Let ar := ar0 n.
Let DA : forall x, is_derive ar x (cos x / rad2 n (cos (2 * x)) ^ 2). Proof. exact (ar0_D n Hn). Qed.
Let ZA : ar 0 = 0. Proof. exact (ar0_0 n). Qed.
Let AP : 0 < A. Proof. exact (A_pos ell H). Qed.

(** ** rectifying *)
Lemma rect_true s x : meridian_length a b s -> - (PI / 2) <= x <= PI / 2 -> Rabs (geodetic2rectifying x ell false - rectifying_latitude s x) <= rect_err n.
Proof. intros L Hx. rewrite (rect_code ell H), (rect_mu ell H HF s x L Hx). apply rcode_mu; assumption. Qed.
Lemma recti_true s x : meridian_length a b s -> - (PI / 2) <= x <= PI / 2 -> Rabs (rectifying2geodetic (rectifying_latitude s x) ell false - x) <= recti_err n.
Proof. intros L Hx. rewrite (recti_code ell H), (rect_mu ell H HF s x L Hx). apply ricode_mu; assumption. Qed.
Lemma rect_round x : - (PI / 2) <= x <= PI / 2 -> Rabs (rectifying2geodetic (geodetic2rectifying x ell false) ell false - x) <= recti_err n + 14 / 10 * rect_err n.
Proof. intros Hx. rewrite (recti_code ell H), (rect_code ell H). apply (rcode_round n Hn mer DM ZM); assumption. Qed.
Lemma recti_round x : - (PI / 2) <= x <= PI / 2 -> Rabs (geodetic2rectifying (rectifying2geodetic x ell false) ell false - x) <= rect_err n + 14 / 10 * recti_err n.
Proof. intros Hx. rewrite (recti_code ell H), (rect_code ell H). apply (ricode_round n Hn mer DM ZM); assumption. Qed.
Lemma rect_onto s y : meridian_length a b s -> - (PI / 2) <= y <= PI / 2 -> exists x, - (PI / 2) <= x <= PI / 2 /\ rectifying_latitude s x = y.
Proof. intros L Hy. destruct (mu_onto n Hn mer DM ZM y Hy) as (x & Hx & E). exists x. split; [exact Hx|]. rewrite (rect_mu ell H HF s x L Hx). exact E. Qed.
Lemma rho_code : 0 <= rectifying ell / A - (1 + n ^ 2 / 4) <= n ^ 6 / 180.
Proof.
  pose proof (Hb0 ell H) as Hb. pose proof (Hab0 ell H) as Hab. fold b in Hb, Hab. fold a in Hab.
  apply rho_close with (y := sqrt (1 - n ^ 2)).
  - exact Hn.
  - left. apply Rdiv_lt_0_compat; [unfold rectifying, Rpower; apply exp_pos|exact AP].
  - apply sqrt_pos.
  - rewrite <- Rsqr_pow2. apply Rsqr_sqrt. clear - Hn. nra.
  - unfold rectifying. rewrite resolve_a, resolve_b. fold a b.
    set (p := Rpower a (3 / 2)). set (q := Rpower b (3 / 2)). assert (P : 0 < p) by apply exp_pos. assert (Q : 0 < q) by apply exp_pos.
    assert (P2 : p ^ 2 = a ^ 3). { unfold p. rewrite <- !Rpower_pow by (try apply exp_pos; lra). rewrite Rpower_mult. f_equal. simpl. lra. }
    assert (Q2 : q ^ 2 = b ^ 3). { unfold q. rewrite <- !Rpower_pow by (try apply exp_pos; lra). rewrite Rpower_mult. f_equal. simpl. lra. }
    assert (C : Rpower ((p + q) / 2) (2 / 3) ^ 3 = ((p + q) / 2) ^ 2). { rewrite <- !Rpower_pow by (try apply exp_pos; lra). rewrite Rpower_mult. f_equal. simpl. lra. }
    set (r := Rpower ((p + q) / 2) (2 / 3)) in *. replace ((r / A) ^ 3) with (r ^ 3 / A ^ 3) by (field; lra). rewrite C.
    assert (PQ : p * q = A ^ 3 * sqrt (1 - n ^ 2) ^ 3).
    { assert (N1 : 0 <= 1 - n ^ 2) by (clear - Hn; nra). pose proof (sqrt_pos (1 - n ^ 2)) as S0.
      apply Rsqr_inj; [apply Rmult_le_pos; lra|apply Rmult_le_pos; apply pow_le; lra|]. unfold Rsqr.
      replace (p * q * (p * q)) with (p ^ 2 * q ^ 2) by ring. rewrite P2, Q2. replace (A ^ 3 * sqrt (1 - n ^ 2) ^ 3 * (A ^ 3 * sqrt (1 - n ^ 2) ^ 3)) with (A ^ 6 * (sqrt (1 - n ^ 2) ^ 2) ^ 3) by ring.
      rewrite (pow2_sqrt' _ N1).
      rewrite (a_A ell H : a = A * (1 + n)), (b_A ell H : b = A * (1 - n)). ring. }
    replace (((p + q) / 2) ^ 2) with ((p ^ 2 + q ^ 2 + 2 * (p * q)) / 4) by field. rewrite P2, Q2, PQ.
    pose proof (a_A ell H : a = A * (1 + n)) as Ea. pose proof (b_A ell H : b = A * (1 - n)) as Eb. rewrite Ea, Eb. field. lra.
Qed.
Lemma arc_true s x y : meridian_length a b s -> - (PI / 2) <= x <= PI / 2 -> - (PI / 2) <= y <= PI / 2 ->
  Rabs (meridian_arc x y ell false - Rabs (s y - s x)) <= arc_err n * Rabs (s y - s x).
Proof.
  intros L Hx Hy. unfold meridian_arc. cbn [rad_in]. rewrite !(rect_code ell H). fold a b n. rewrite !(length_mer ell H HF s L) by assumption. fold a b n A. fold mer.
  set (d := ssum (rcode n) y - ssum (rcode n) x). pose proof (rcode_rel n Hn mer DM x y) as Q. fold d in Q. set (m := mer y - mer x) in *.
  replace (A * mer y - A * mer x) with (A * m) by (unfold m; ring). rewrite Rabs_mult, (Rabs_right A) by lra.
  replace (rectifying ell * Rabs d - A * Rabs m) with (A * (rectifying ell / A * Rabs d - Rabs m)) by (field; lra). rewrite Rabs_mult, (Rabs_right A) by lra.
  replace (arc_err n * (A * Rabs m)) with (A * (arc_err n * Rabs m)) by ring. apply Rmult_le_compat_l; [lra|].
  apply (rho_arc n Hn); [apply Rabs_pos|exact rho_code|]. eapply Rle_trans; [|exact Q].
  pose proof (rmean_pos n Hn) as RM. replace (rmean n * Rabs d) with (Rabs (rmean n * d)) by (rewrite Rabs_mult, (Rabs_right (rmean n)); [reflexivity|lra]). apply Rabs_triang_inv2.
Qed.
(** ** authalic *)
Let t := eccentricity (resolve_ellipsoid ell) ^ 2.
Let Et : t = 4 * n / (1 + n) ^ 2. Proof. exact (e2_n ell H HF). Qed.
Definition auth_err : R := third (ell_a ell) (ell_b ell) ^ 4 * (33 + 230 * third (ell_a ell) (ell_b ell)).
Definition authi_err : R := third (ell_a ell) (ell_b ell) ^ 4 * (40 + 630 * third (ell_a ell) (ell_b ell)).
Let n6le : n ^ 6 <= n ^ 4 * (n / 19). Proof. replace (n ^ 6) with (n ^ 4 * (n * n)) by ring. apply Rmult_le_compat_l; [apply np|]. nra. Qed.
Lemma acode_true x : - (PI / 2) <= x <= PI / 2 -> Rabs (ssum (acode t) x - xi ar x) <= auth_err.
Proof.
  intros Hx. pose proof (acode_close n Hn x) as P. rewrite <- Et in P. pose proof (auth_xi n Hn ar DA ZA x Hx) as Q.
  replace (ssum (acode t) x - xi ar x) with ((ssum (acode t) x - ssum (auth n) x) + (ssum (auth n) x - xi ar x)) by ring.
  eapply Rle_trans; [apply Rabs_triang|]. unfold auth_err. fold a b n. pose proof (np 4). pose proof (Rmult_le_pos _ _ (np 4) (proj1 Hn)). lra.
Qed.
Lemma aicode_true x : - (PI / 2) <= x <= PI / 2 -> Rabs (ssum (aicode t) (xi ar x) - x) <= authi_err.
Proof.
  intros Hx. pose proof (aicode_close n Hn (xi ar x)) as P. rewrite <- Et in P. pose proof (authi_xi n Hn ar DA ZA x Hx) as Q.
  replace (ssum (aicode t) (xi ar x) - x) with ((ssum (aicode t) (xi ar x) - ssum (authi n) (xi ar x)) + (ssum (authi n) (xi ar x) - x)) by ring.
  eapply Rle_trans; [apply Rabs_triang|]. unfold authi_err. fold a b n. pose proof (np 4). pose proof (Rmult_le_pos _ _ (np 4) (proj1 Hn)). lra.
Qed.
Lemma auth_true S x : zone_area a b S -> - (PI / 2) <= x <= PI / 2 -> Rabs (geodetic2authalic x ell false - authalic_latitude S x) <= auth_err.
Proof. intros L Hx. rewrite (auth_code ell), (auth_xi0 ell H HF S x L Hx). now apply acode_true. Qed.
Lemma authi_true S x : zone_area a b S -> - (PI / 2) <= x <= PI / 2 -> Rabs (authalic2geodetic (authalic_latitude S x) ell false - x) <= authi_err.
Proof. intros L Hx. rewrite (authi_code ell), (auth_xi0 ell H HF S x L Hx). now apply aicode_true. Qed.
Lemma xi_onto y : - (PI / 2) <= y <= PI / 2 -> exists x, - (PI / 2) <= x <= PI / 2 /\ xi ar x = y.
Proof.
  intros Hy. pose proof PI_RGT_0 as PP. destruct (arp_pos n Hn ar DA ZA) as [_ P]. pose proof (ar_odd n ar DA ZA (PI / 2)) as O.
  destruct (IVT_gen ar (- (PI / 2)) (PI / 2) (sin y * ar (PI / 2))) as (x & Hx & E).
  - intros u. apply derivable_continuous_pt. eexists. apply is_derive_Reals, DA.
  - rewrite O. pose proof (SIN_bound y). rewrite Rmin_left, Rmax_right by lra. split; nra.
  - rewrite Rmin_left, Rmax_right in Hx by lra. exists x. split; [exact Hx|]. unfold xi. rewrite E. replace (sin y * ar (PI / 2) / ar (PI / 2)) with (sin y) by (field; lra). apply asin_sin. lra.
Qed.
Lemma auth_onto S y : zone_area a b S -> - (PI / 2) <= y <= PI / 2 -> exists x, - (PI / 2) <= x <= PI / 2 /\ authalic_latitude S x = y.
Proof. intros L Hy. destruct (xi_onto y Hy) as (x & Hx & E). exists x. split; [exact Hx|]. rewrite (auth_xi0 ell H HF S x L Hx). exact E. Qed.
Let lip_a x y : Rabs (ssum (auth n) y - ssum (auth n) x) <= 13 / 10 * Rabs (y - x).
Proof. apply (lip_of (auth n)). intros u. destruct (auth_dsum n (cos (2 * u)) Hn (cos_abs1 _)) as [Q _]. rewrite Rabs_right; lra. Qed.
Let lip_ai x y : Rabs (ssum (authi n) y - ssum (authi n) x) <= 13 / 10 * Rabs (y - x).
Proof. apply (lip_of (authi n)). intros u. destruct (auth_dsum n (cos (2 * u)) Hn (cos_abs1 _)) as [_ Q]. rewrite Rabs_right; lra. Qed.
Lemma auth_round x : - (PI / 2) <= x <= PI / 2 -> Rabs (authalic2geodetic (geodetic2authalic x ell false) ell false - x) <= n ^ 4 * (83 + 930 * n).
Proof.
  intros Hx. rewrite (authi_code ell), (auth_code ell). fold t. set (z := ssum (acode t) x).
  pose proof (aicode_close n Hn z) as P. rewrite <- Et in P. pose proof (lip_ai (xi ar x) z) as Q. pose proof (acode_true x Hx) as R. fold z in R. pose proof (authi_xi n Hn ar DA ZA x Hx) as T.
  replace (ssum (aicode t) z - x) with ((ssum (aicode t) z - ssum (authi n) z) + (ssum (authi n) z - ssum (authi n) (xi ar x)) + (ssum (authi n) (xi ar x) - x)) by ring.
  eapply Rle_trans; [apply Rabs_triang|]. eapply Rle_trans; [apply Rplus_le_compat_r, Rabs_triang|]. unfold auth_err in R. fold a b n in R. pose proof (np 4). pose proof (Rmult_le_pos _ _ (np 4) (proj1 Hn)). lra.
Qed.
Lemma authi_round y : - (PI / 2) <= y <= PI / 2 -> Rabs (geodetic2authalic (authalic2geodetic y ell false) ell false - y) <= n ^ 4 * (85 + 1050 * n).
Proof.
  intros Hy. destruct (xi_onto y Hy) as (x & Hx & E). rewrite (authi_code ell), (auth_code ell). fold t. set (z := ssum (aicode t) y).
  pose proof (acode_close n Hn z) as P. rewrite <- Et in P. pose proof (lip_a x z) as Q. pose proof (aicode_true x Hx) as R. rewrite E in R. fold z in R. pose proof (auth_xi n Hn ar DA ZA x Hx) as T. rewrite E in T.
  replace (ssum (acode t) z - y) with ((ssum (acode t) z - ssum (auth n) z) + (ssum (auth n) z - ssum (auth n) x) + (ssum (auth n) x - y)) by ring.
  eapply Rle_trans; [apply Rabs_triang|]. eapply Rle_trans; [apply Rplus_le_compat_r, Rabs_triang|]. unfold authi_err in R. fold a b n in R. pose proof (np 4). pose proof (Rmult_le_pos _ _ (np 4) (proj1 Hn)). lra.
Qed.
(** ** conformal *)
Let e := eccentricity (resolve_ellipsoid ell).
Let psi := L_latitude3.iso_expr e.
Let chi x := geodetic2conformal x ell false.
Let DP x : - (PI / 2) < x < PI / 2 -> is_derive psi x ((1 - n) ^ 2 / (rad2 n (cos (2 * x)) * cos x)).
Proof.
  intros Hx. assert (C : 0 < cos x) by (apply cos_gt_0; lra). pose proof (L_latitude3.D_iso ell H x C) as D. fold e in D. fold psi in D.
  replace ((1 - n) ^ 2 / (rad2 n (cos (2 * x)) * cos x)) with (meridian x ell false / parallel x ell false); [exact D|].
  rewrite (meridian_W ell H). unfold parallel. rewrite (transverse_W ell H). cbn [rad_in]. fold a b. pose proof (W_sqrt ell H HF x) as W. fold a b n A in W. rewrite W.
  pose proof (rad2_posx n Hn x) as R. pose proof (sqrt_lt_R0 _ R) as Q. assert (S : sqrt (rad2 n (cos (2 * x))) ^ 2 = rad2 n (cos (2 * x))) by (rewrite <- Rsqr_pow2; apply Rsqr_sqrt; lra).
  pose proof (a_A ell H : a = A * (1 + n)) as Ea. pose proof (b_A ell H : b = A * (1 - n)) as Eb. rewrite <- S at 3. rewrite Ea, Eb. field. repeat split; try lra.
Qed.
Definition conf_err : R := third (ell_a ell) (ell_b ell) ^ 5 * (173 + 20900 * third (ell_a ell) (ell_b ell)).
Let lec : Rabs e <= 1. Proof. pose proof (L_rsphere.ecc_lt1 ell H). pose proof (ell_e_nonneg ell H). fold e in H0, H1. rewrite Rabs_right; lra. Qed.
Lemma conf_err_pos : 0 <= conf_err.
Proof. unfold conf_err. fold a b n. apply Rmult_le_pos; [apply np|lra]. Qed.
Lemma conf_round x : - (PI / 2) <= x <= PI / 2 -> Rabs (conformal2geodetic (chi x) ell false - x) <= conf_err.
Proof.
  assert (P0 : forall x, 0 <= x <= PI / 2 -> Rabs (conformal2geodetic (chi x) ell false - x) <= conf_err).
  { intros x0 Hx. pose proof PI_RGT_0 as PP. destruct (L_latitude3.conformal_props ell H false) as ((_ & _ & P1 & _) & _). cbn [quarter] in P1. rewrite (conf_code ell). fold t.
    destruct (Req_dec x0 (PI / 2)) as [E|N].
    - subst x0. unfold chi. rewrite P1, ssum_PI2. replace (PI / 2 - PI / 2) with 0 by ring. rewrite Rabs_R0. apply conf_err_pos.
    - assert (E : chi x0 = gd (psi x0)). { pose proof (L_latitude3.conf_in ell H x0 ltac:(lra)) as Q. exact Q. }
      rewrite E. pose proof (conf_inv_pos n Hn psi DP (L_latitude3.iso_0 ell H) x0 ltac:(lra)) as Q. pose proof (ccode_close n Hn (gd (psi x0))) as P. rewrite <- Et in P.
      replace (ssum (ccode t) (gd (psi x0)) - x0) with ((ssum (ccode t) (gd (psi x0)) - ssum (conf n) (gd (psi x0))) + (ssum (conf n) (gd (psi x0)) - x0)) by ring.
      eapply Rle_trans; [apply Rabs_triang|]. unfold conf_err. fold a b n. pose proof (np 5). replace (n ^ 6) with (n ^ 5 * n) in Q by ring. pose proof (Rmult_le_pos _ _ (np 5) (proj1 Hn)). lra. }
  intros Hx. destruct (Rle_dec 0 x) as [L|L]; [apply P0; lra|].
  destruct (L_latitude3.conformal_props ell H false) as ((O & _) & _). cbn [quarter] in O. pose proof (P0 (- x) ltac:(lra)) as Q. unfold chi in *.
  rewrite O in Q by lra. rewrite (conf_code ell) in *. fold t in Q |- *. rewrite ssum_opp in Q. replace (- ssum (ccode t) (geodetic2conformal x ell false) - - x) with (- (ssum (ccode t) (geodetic2conformal x ell false) - x)) in Q by ring. rewrite Rabs_Ropp in Q. exact Q.
Qed.
Let c_low u : 66 / 100 <= dsum (ccode t) (cos (2 * u)).
Proof.
  destruct (tn_ex n Hn) as (th & T & E). rewrite Et, E. pose proof (cos_abs1 (2 * u)) as C. pose proof (ccode_d n th _ Hn T C) as Q. apply Rabs_le_between in Q. apply Rabs_le_between in C.
  assert (n ^ 2 <= 1 / 361) by (clear - Hn; nra). assert (- (1 / 19) <= n * cos (2 * u)) by (clear - Hn C; nra). lra.
Qed.
Lemma confi_round y : - (PI / 2) <= y <= PI / 2 -> Rabs (geodetic2conformal (conformal2geodetic y ell false) ell false - y) <= 152 / 100 * conf_err.
Proof.
  intros Hy. assert (Z : - (PI / 2) <= conformal2geodetic y ell false <= PI / 2). { rewrite (conf_code ell). fold t. apply ssum_half; [intros u; pose proof (c_low u); lra|exact Hy]. }
  pose proof (conf_round _ Z) as Q. unfold chi in Q. rewrite (conf_code ell) in Q. rewrite (conf_code ell y) in Q |- *. fold t in Q |- *. set (u := geodetic2conformal (ssum (ccode t) y) ell false) in *.
  pose proof (steep (ccode t) (66 / 100) c_low ltac:(lra) y u) as S. pose proof conf_err_pos. lra.
Qed.
End E.
