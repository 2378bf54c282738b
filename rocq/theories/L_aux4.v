(** The authalic latitude: forward, backward, round trips. *)
From Coq Require Import QArith List Reals Lra Lia Psatz.
Import ListNotations.
From Coquelicot Require Import Coquelicot.
From Verif Require Import PyMath L_PyMath L_poly L_series1 L_series2 L_aux1 L_aux2 L_aux3.
Open Scope R_scope.

Section Authalic.
Variable n : R.
Hypothesis Hn : 0 <= n <= 1 / 19.
(** [ar] is, up to a constant factor, the area of the zone from the equator. *)
Variable ar : R -> R.
Hypothesis D : forall x, is_derive ar x (cos x / rad2 n (cos (2 * x)) ^ 2).
Hypothesis Z : ar 0 = 0.
Let e1 := 124 * n ^ 6.
Let e2 := 1900 * n ^ 6.
Lemma n6 : 0 <= n ^ 6 <= 1 / 40000000.
Proof. split; [apply pow_le; lra|]. apply Rle_trans with ((1 / 19) ^ 6); [apply pow_incr; lra|simpl; lra]. Qed.
Lemma e1_small : 0 <= e1 <= 1 / 100000. Proof. unfold e1. pose proof n6. lra. Qed.
Lemma e2_small : 0 <= e2 <= 1 / 10000. Proof. unfold e2. pose proof n6. lra. Qed.
Lemma x_pos x : 804 / 1000 <= rad2 n (cos (2 * x)) ^ 2.
Proof.
  destruct (rad2_lo n (cos (2 * x)) Hn (cos_abs1 _)) as [L _]. assert (89 / 100 <= (1 - n) ^ 2) by nra. assert (897 / 1000 <= rad2 n (cos (2 * x))) by nra. nra.
Qed.
Lemma cos_nonneg x : - (PI / 2) <= x <= PI / 2 -> 0 <= cos x. Proof. intros H. apply cos_ge_0; lra. Qed.
Lemma fwd_on x y : - (PI / 2) <= x -> x <= y -> y <= PI / 2 ->
  Rabs ((sin (ssum (auth n) y) - sin (ssum (auth n) x)) - (kap n * ar y - kap n * ar x)) <= e1 * (kap n * ar y - kap n * ar x).
Proof.
  intros H1 H2 H3.
  apply (rel_on (fun x => sin (ssum (auth n) x)) (fun x => kap n * ar x) (fun x => cos (ssum (auth n) x) * dsum (auth n) (cos (2 * x))) (fun x => kap n * (cos x / rad2 n (cos (2 * x)) ^ 2)) e1 (- (PI / 2)) (PI / 2)); try assumption.
  - intros t. apply is_derive_Reals. apply (derivable_pt_lim_comp (ssum (auth n)) sin); [apply is_derive_Reals, ssum_derive|apply derivable_pt_lim_sin].
  - intros t. apply is_derive_Reals, derivable_pt_lim_scal, is_derive_Reals, D.
  - intros t Ht. destruct (cos_ssum (auth n) t) as (th & th' & T & T' & E). rewrite E. pose proof (auth_res n (cos (2 * t)) th th' Hn (cos_abs1 _) T T') as Q.
    pose proof (x_pos t) as X. pose proof (cos_nonneg t Ht) as C. pose proof (kap_pos n Hn) as K. set (B := brk _ _ _ _) in *. set (d := dsum (auth n) (cos (2 * t))) in *. set (q := rad2 n (cos (2 * t)) ^ 2) in *.
    replace (cos t * B * d - kap n * (cos t / q)) with (cos t / q * (B * d * q - kap n)) by (field; lra). rewrite Rabs_mult.
    assert (Cq : 0 <= cos t / q) by (apply Rmult_le_pos; [exact C|apply Rlt_le, Rinv_0_lt_compat; lra]). rewrite (Rabs_right (cos t / q)) by lra.
    replace (e1 * (kap n * (cos t / q))) with (cos t / q * (e1 * kap n)) by ring. apply Rmult_le_compat_l; [exact Cq|]. eapply Rle_trans; [exact Q|]. fold e1.
    pose proof e1_small. nra.
Qed.
Lemma ar_comp y : is_derive (fun y => kap n * ar (ssum (authi n) y)) y (kap n * (cos (ssum (authi n) y) / rad2 n (cos (2 * ssum (authi n) y)) ^ 2 * dsum (authi n) (cos (2 * y)))).
Proof.
  apply is_derive_Reals, derivable_pt_lim_scal. apply (derivable_pt_lim_comp (ssum (authi n)) ar); apply is_derive_Reals; [apply ssum_derive|apply D].
Qed.
Lemma bwd_on x y : - (PI / 2) <= x -> x <= y -> y <= PI / 2 ->
  Rabs ((kap n * ar (ssum (authi n) y) - kap n * ar (ssum (authi n) x)) - (sin y - sin x)) <= e2 * (sin y - sin x).
Proof.
  intros H1 H2 H3.
  apply (rel_on (fun y => kap n * ar (ssum (authi n) y)) sin _ cos e2 (- (PI / 2)) (PI / 2) x y ar_comp); try assumption.
  - intros t. auto_derive; [exact I|ring].
  - intros t Ht. pose proof (x_pos (ssum (authi n) t)) as X. destruct (cos_ssum (authi n) t) as (th & th' & T & T' & E).
    assert (E2 : cos (2 * ssum (authi n) t) = (1 + cos (2 * t)) * brk (cos (2 * t)) (vsum (authi n) (cos (2 * t))) th th' ^ 2 - 1).
    { rewrite cos_2a_cos, E, (cos_2a_cos t). ring. }
    pose proof (authi_res n (cos (2 * t)) th th' Hn (cos_abs1 _) T T') as Q. cbv zeta in Q. rewrite <- E2 in Q. rewrite E.
    pose proof (cos_nonneg t Ht) as C. set (B := brk _ _ _ _) in *. set (d := dsum (authi n) (cos (2 * t))) in *. set (q := rad2 n (cos (2 * ssum (authi n) t)) ^ 2) in *.
    replace (kap n * (cos t * B / q * d) - cos t) with (cos t * ((kap n * B * d - q) / q)) by (field; lra). rewrite Rabs_mult, (Rabs_right (cos t)), Rmult_comm by lra.
    apply Rmult_le_compat_r; [exact C|]. unfold Rdiv. rewrite Rabs_mult, (Rabs_right (/ q)) by (apply Rle_ge, Rlt_le, Rinv_0_lt_compat; lra).
    apply Rmult_le_reg_r with q; [lra|]. rewrite Rmult_assoc, Rinv_l, Rmult_1_r by lra. eapply Rle_trans; [exact Q|]. unfold e2. pose proof n6. nra.
Qed.
(** ** the true authalic latitude *)
Definition xi (x : R) : R := asin (ar x / ar (PI / 2)).
Lemma ar_incr x y : - (PI / 2) <= x -> x <= y -> y <= PI / 2 -> ar x <= ar y.
Proof.
  intros. apply (incr_on ar _ (- (PI / 2)) (PI / 2) x y D); try assumption. intros t Ht. apply Rmult_le_pos; [apply cos_nonneg; exact Ht|].
  pose proof (x_pos t). apply Rlt_le, Rinv_0_lt_compat. lra.
Qed.
Lemma arp_close : Rabs (1 - kap n * ar (PI / 2)) <= e1 * (kap n * ar (PI / 2)).
Proof.
  pose proof PI_RGT_0. pose proof (fwd_on 0 (PI / 2) ltac:(lra) ltac:(lra) ltac:(lra)) as H0. rewrite ssum_0, ssum_PI2, sin_0, sin_PI2, Z, Rmult_0_r, !Rminus_0_r in H0. exact H0.
Qed.
Lemma arp_pos : 99 / 100 <= kap n * ar (PI / 2) <= 101 / 100 /\ 0 < ar (PI / 2).
Proof.
  pose proof arp_close as H. pose proof e1_small. pose proof (kap_pos n Hn). pose proof (Rabs_pos (1 - kap n * ar (PI / 2))).
  apply Rabs_le_between in H. set (q := kap n * ar (PI / 2)) in *. assert (Q : 99 / 100 <= q <= 101 / 100) by nra. split; [exact Q|].
  unfold q in Q. nra.
Qed.
Lemma ar_odd x : ar (- x) = - ar x.
Proof.
  assert (H : Rabs ((ar x - ar 0) - (- ar (- x) - - ar (- 0))) <= 0 * Rabs (x - 0)).
  { apply (derive_close ar (fun x => - ar (- x)) (fun x => cos x / rad2 n (cos (2 * x)) ^ 2) (fun x => cos x / rad2 n (cos (2 * x)) ^ 2)).
    - exact D.
    - intros t. replace (cos t / rad2 n (cos (2 * t)) ^ 2) with (- - (cos (- t) / rad2 n (cos (2 * - t)) ^ 2)) by (replace (2 * - t) with (- (2 * t)) by ring; rewrite !cos_neg; ring).
      apply is_derive_Reals. apply derivable_pt_lim_opp. replace (- (cos (- t) / rad2 n (cos (2 * - t)) ^ 2)) with (cos (- t) / rad2 n (cos (2 * - t)) ^ 2 * -1) by ring.
      apply (derivable_pt_lim_comp (fun x => - x) ar t (-1)); [|apply is_derive_Reals, D].
      replace (-1) with (- 1) by ring. apply derivable_pt_lim_opp, derivable_pt_lim_id.
    - intros t. rewrite Rminus_diag_eq, Rabs_R0 by reflexivity. lra. }
  rewrite Ropp_0, Z, Ropp_0, !Rminus_0_r, Rmult_0_l in H. pose proof (Rabs_pos (ar x - - ar (- x))). 
  destruct (Req_dec (ar x - - ar (- x)) 0) as [E|E]; [lra|]. apply Rabs_pos_lt in E. lra.
Qed.
Lemma xi_range x : 0 <= x <= PI / 2 -> 0 <= ar x / ar (PI / 2) <= 1 /\ 0 <= xi x <= PI / 2 /\ sin (xi x) = ar x / ar (PI / 2).
Proof.
  intros H. destruct arp_pos as [_ P]. pose proof PI_RGT_0.
  assert (A0 : 0 <= ar x) by (rewrite <- Z; apply ar_incr; lra). assert (A1 : ar x <= ar (PI / 2)) by (apply ar_incr; lra).
  assert (Q : 0 <= ar x / ar (PI / 2) <= 1).
  { split; [apply Rmult_le_pos; [lra|apply Rlt_le, Rinv_0_lt_compat; lra]|]. apply Rmult_le_reg_r with (ar (PI / 2)); [lra|]. unfold Rdiv. rewrite Rmult_assoc, Rinv_l, Rmult_1_r by lra. lra. }
  assert (S : sin (xi x) = ar x / ar (PI / 2)) by (unfold xi; apply sin_asin; lra). pose proof (asin_bound (ar x / ar (PI / 2))) as B. fold (xi x) in B.
  split; [exact Q|]. split; [|exact S]. split; [|lra]. destruct (Rle_dec 0 (xi x)) as [L|L]; [exact L|]. exfalso.
  assert (sin (xi x) < 0) by (apply sin_lt_0_var; lra). lra.
Qed.
Lemma xi_opp x : xi (- x) = - xi x.
Proof. unfold xi. rewrite ar_odd. replace (- ar x / ar (PI / 2)) with (- (ar x / ar (PI / 2))) by (unfold Rdiv; ring). apply asin_opp. Qed.
Lemma xi_0 : xi 0 = 0. Proof. unfold xi. rewrite Z. unfold Rdiv. rewrite Rmult_0_l. apply asin_0. Qed.
Lemma ssum_quarter h x : (forall t, 0 <= dsum h (cos (2 * t))) -> 0 <= x <= PI / 2 -> 0 <= ssum h x <= PI / 2.
Proof.
  intros H Hx. split.
  - rewrite <- (ssum_0 h). apply (incr_of_derive (ssum h) (fun t => dsum h (cos (2 * t)))); [intros; apply ssum_derive|exact H|lra].
  - rewrite <- (ssum_PI2 h). apply (incr_of_derive (ssum h) (fun t => dsum h (cos (2 * t)))); [intros; apply ssum_derive|exact H|lra].
Qed.
Lemma auth_xi_pos x : 0 <= x <= PI / 2 -> Rabs (ssum (auth n) x - xi x) <= 790 * n ^ 6.
Proof.
  intros Hx. pose proof PI_RGT_0 as P. destruct (xi_range x Hx) as (Q & R & S). destruct arp_pos as [KA A].
  assert (SQ : 0 <= ssum (auth n) x <= PI / 2) by (apply ssum_quarter; [intros t; destruct (auth_dsum n (cos (2 * t)) Hn (cos_abs1 _)); lra|exact Hx]).
  pose proof e1_small as E1.
  apply Rle_trans with (21 / 10 * (3 * e1)); [|unfold e1; pose proof n6; lra]. apply sin_close; [exact SQ|exact R|lra|]. rewrite S.
  pose proof (fwd_on x (PI / 2) ltac:(lra) ltac:(lra) ltac:(lra)) as F. rewrite ssum_PI2, sin_PI2 in F. pose proof arp_close as G.
  set (q := ar x / ar (PI / 2)) in *. set (K := kap n * ar (PI / 2)) in *. set (s := sin (ssum (auth n) x)) in *.
  replace (K - kap n * ar x) with (K * (1 - q)) in F by (unfold K, q; field; lra).
  replace (1 - s - (1 - q)) with ((1 - s - K * (1 - q)) - (1 - K) * (1 - q)) by ring. unfold Rminus at 1. eapply Rle_trans; [apply Rabs_triang|]. rewrite Rabs_Ropp, Rabs_mult, (Rabs_right (1 - q)) by lra.
  replace (3 * e1 * (1 - q)) with (3 / 2 * e1 * (1 - q) + 3 / 2 * e1 * (1 - q)) by field. apply Rplus_le_compat.
  - eapply Rle_trans; [exact F|]. replace (e1 * (K * (1 - q))) with (e1 * K * (1 - q)) by ring. apply Rmult_le_compat_r; nra.
  - apply Rmult_le_compat_r; [lra|]. eapply Rle_trans; [exact G|]. nra.
Qed.
Theorem auth_xi x : - (PI / 2) <= x <= PI / 2 -> Rabs (ssum (auth n) x - xi x) <= 790 * n ^ 6.
Proof.
  intros Hx. destruct (Rle_dec 0 x) as [L|L]; [apply auth_xi_pos; lra|].
  replace (ssum (auth n) x - xi x) with (- (ssum (auth n) (- x) - xi (- x))) by (rewrite ssum_opp, xi_opp; ring). rewrite Rabs_Ropp. apply auth_xi_pos. lra.
Qed.
Lemma xi_authi_pos y : 0 <= y <= PI / 2 -> Rabs (xi (ssum (authi n) y) - y) <= 4400 * n ^ 6.
Proof.
  intros Hy. pose proof PI_RGT_0 as P. 
  assert (SQ : 0 <= ssum (authi n) y <= PI / 2) by (apply ssum_quarter; [intros t; destruct (auth_dsum n (cos (2 * t)) Hn (cos_abs1 _)); lra|exact Hy]).
  destruct (xi_range _ SQ) as (Q & R & S). destruct arp_pos as [KA A]. pose proof e1_small as E1. pose proof e2_small as E2.
  apply Rle_trans with (21 / 10 * (2095 * n ^ 6)); [|pose proof n6; lra]. apply sin_close; [exact R|exact Hy|pose proof n6; lra|]. rewrite S.
  pose proof (bwd_on y (PI / 2) ltac:(lra) ltac:(lra) ltac:(lra)) as F. rewrite ssum_PI2, sin_PI2 in F. pose proof arp_close as G.
  set (q := ar (ssum (authi n) y) / ar (PI / 2)) in *. set (K := kap n * ar (PI / 2)) in *. set (s := sin y) in *.
  replace (K - kap n * ar (ssum (authi n) y)) with (K * (1 - q)) in F by (unfold K, q; field; lra).
  assert (S1 : s <= 1) by (unfold s; pose proof (SIN_bound y); lra).
  (* K (1 - q) = (1 - s)(1 + e) *)
  assert (B : Rabs ((1 - K) * (1 - q)) <= 130 * n ^ 6 * (1 - s)).
  { rewrite Rabs_mult, (Rabs_right (1 - q)) by lra. apply Rabs_le_between in F.
    assert (U : K * (1 - q) <= (1 - s) * (1 + e2)) by lra.
    apply Rle_trans with (e1 * K * (1 - q)); [apply Rmult_le_compat_r; [lra|exact G]|]. rewrite Rmult_assoc. apply Rle_trans with (e1 * ((1 - s) * (1 + e2))); [apply Rmult_le_compat_l; lra|].
    replace (e1 * ((1 - s) * (1 + e2))) with (e1 * (1 + e2) * (1 - s)) by ring. apply Rmult_le_compat_r; [lra|]. unfold e1 in *. pose proof n6. nra. }
  replace (1 - q - (1 - s)) with ((K * (1 - q) - (1 - s)) + (1 - K) * (1 - q)) by ring. eapply Rle_trans; [apply Rabs_triang|].
  replace (2095 * n ^ 6 * (1 - s)) with (1900 * n ^ 6 * (1 - s) + 195 * n ^ 6 * (1 - s)) by ring. apply Rplus_le_compat; [exact F|]. eapply Rle_trans; [exact B|]. apply Rmult_le_compat_r; [lra|]. pose proof n6. lra.
Qed.
(** ** the code *)
Lemma auth_lip_lo x y : 78 / 100 * Rabs (y - x) <= Rabs (ssum (auth n) y - ssum (auth n) x).
Proof.
  destruct (MVT_gen (ssum (auth n)) x y (fun t => dsum (auth n) (cos (2 * t)))) as (c & _ & E).
  - intros t _. apply ssum_derive.
  - intros t _. apply derivable_continuous_pt. eexists. apply is_derive_Reals, ssum_derive.
  - destruct (auth_dsum n (cos (2 * c)) Hn (cos_abs1 _)) as [[L U] _]. rewrite E, Rabs_mult, (Rabs_right (dsum _ _)) by lra. apply Rmult_le_compat_r; [apply Rabs_pos|exact L].
Qed.
Lemma authi_xi_pos x : 0 <= x <= PI / 2 -> Rabs (ssum (authi n) (xi x) - x) <= 7700 * n ^ 6.
Proof.
  intros Hx. destruct (xi_range x Hx) as (_ & R & _). pose proof (xi_authi_pos (xi x) R) as A. 
  assert (SQ : 0 <= ssum (authi n) (xi x) <= PI / 2) by (apply ssum_quarter; [intros t; destruct (auth_dsum n (cos (2 * t)) Hn (cos_abs1 _)); lra|exact R]).
  pose proof (auth_xi_pos _ SQ) as B. pose proof (auth_xi_pos x Hx) as C. set (p := ssum (authi n) (xi x)) in *. pose proof (auth_lip_lo x p) as L. pose proof n6.
  assert (Rabs (ssum (auth n) p - ssum (auth n) x) <= 5980 * n ^ 6); [|lra].
  apply Rabs_le_between in A. apply Rabs_le_between in B. apply Rabs_le_between in C. apply Rabs_le. lra.
Qed.
Theorem authi_xi x : - (PI / 2) <= x <= PI / 2 -> Rabs (ssum (authi n) (xi x) - x) <= 7700 * n ^ 6.
Proof.
  intros Hx. destruct (Rle_dec 0 x) as [L|L]; [apply authi_xi_pos; lra|].
  replace (ssum (authi n) (xi x) - x) with (- (ssum (authi n) (xi (- x)) - - x)) by (rewrite xi_opp, ssum_opp; ring). rewrite Rabs_Ropp. apply authi_xi_pos. lra.
Qed.
End Authalic.
