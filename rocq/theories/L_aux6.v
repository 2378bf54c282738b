(** The conformal latitude: the code's inverse against the closed form. *)
From Coq Require Import QArith List Reals Lra Lia Psatz.
Import ListNotations.
From Coquelicot Require Import Coquelicot.
From Verif Require Import PyMath L_PyMath L_poly L_series1 L_series2 L_aux1 L_aux2 L_aux3 L_aux5.
Open Scope R_scope.

Definition gd (x : R) : R := 2 * atan (exp x) - PI / 2.
Lemma gd_bound x : - (PI / 2) < gd x < PI / 2.
Proof. unfold gd. pose proof (atan_bound (exp x)). assert (0 < atan (exp x)) by (rewrite <- atan_0; apply atan_increasing, exp_pos). lra. Qed.
Lemma gd_0 : gd 0 = 0. Proof. unfold gd. rewrite exp_0, atan_1. field. Qed.
Lemma cos_gd x : cos (gd x) = 2 * exp x / (1 + exp x ^ 2).
Proof.
  unfold gd. rewrite cos_minus, cos_PI2, sin_PI2, sin_2a. rewrite sin_atan, cos_atan. pose proof (exp_pos x) as P.
  assert (Q : 0 < 1 + (exp x)²) by (unfold Rsqr; nra). assert (S : sqrt (1 + (exp x)²) * sqrt (1 + (exp x)²) = 1 + exp x ^ 2) by (rewrite sqrt_sqrt; [unfold Rsqr; ring|lra]).
  assert (0 < sqrt (1 + (exp x)²)) by (apply sqrt_lt_R0; exact Q). rewrite <- S. field. lra.
Qed.
Lemma gd_derive x : is_derive gd x (cos (gd x)).
Proof.
  rewrite cos_gd. unfold gd. auto_derive; [exact I|]. pose proof (exp_pos x). field. nra.
Qed.
Lemma gd_incr x y : x < y -> gd x < gd y.
Proof. intros H. unfold gd. assert (atan (exp x) < atan (exp y)) by (apply atan_increasing, exp_increasing, H). lra. Qed.
Lemma gd_small x : 0 <= x -> x * cos (gd x) <= 1.
Proof.
  intros H. rewrite cos_gd. pose proof (exp_pos x) as P. set (y := exp x) in *.
  assert (Y : 2 * x <= y). { assert (E : y = exp (x / 2) * exp (x / 2)) by (unfold y; rewrite <- exp_plus; f_equal; field). pose proof (exp_ineq1_le (x / 2)) as W. rewrite E. set (w := exp (x / 2)) in *. assert ((1 + x / 2) * (1 + x / 2) <= w * w) by (apply Rmult_le_compat; lra). pose proof (Rle_0_sqr (1 - x / 2)) as S. unfold Rsqr in S. lra. }
  apply Rmult_le_reg_r with (1 + y ^ 2); [nra|]. replace (x * (2 * y / (1 + y ^ 2)) * (1 + y ^ 2)) with (2 * x * y) by (field; nra). nra.
Qed.
Section Conformal.
Variable n : R.
Hypothesis Hn : 0 <= n <= 1 / 19.
(** [psi] is the isometric latitude. *)
Variable psi : R -> R.
Hypothesis D : forall x, - (PI / 2) < x < PI / 2 -> is_derive psi x ((1 - n) ^ 2 / (rad2 n (cos (2 * x)) * cos x)).
Hypothesis Z : psi 0 = 0.
Lemma psi_mvt x y : - (PI / 2) < x -> x <= y -> y < PI / 2 -> exists t, x <= t <= y /\ psi y - psi x = (1 - n) ^ 2 / (rad2 n (cos (2 * t)) * cos t) * (y - x).
Proof.
  intros H1 H2 H3. destruct (MVT_gen psi x y (fun x => (1 - n) ^ 2 / (rad2 n (cos (2 * x)) * cos x))) as (c & Hc & E).
  - intros t Ht. rewrite Rmin_left, Rmax_right in Ht by lra. apply D; lra.
  - intros t Ht. rewrite Rmin_left, Rmax_right in Ht by lra. apply derivable_continuous_pt. eexists. apply is_derive_Reals, D; lra.
  - rewrite Rmin_left, Rmax_right in Hc by lra. exists c. split; [exact Hc|exact E].
Qed.
Lemma psi_d_pos t : - (PI / 2) < t < PI / 2 -> 0 < cos t /\ 0 < (1 - n) ^ 2 / (rad2 n (cos (2 * t)) * cos t).
Proof.
  intros H. assert (C : 0 < cos t) by (apply cos_gt_0; lra). split; [exact C|]. destruct (rad2_lo n (cos (2 * t)) Hn (cos_abs1 _)) as [L _].
  assert (0 < (1 - n) ^ 2) by (apply pow_lt; lra). apply Rdiv_lt_0_compat; [assumption|]. apply Rmult_lt_0_compat; lra.
Qed.
Lemma psi_incr x y : - (PI / 2) < x -> x < y -> y < PI / 2 -> psi x < psi y.
Proof.
  intros H1 H2 H3. destruct (psi_mvt x y H1 (Rlt_le _ _ H2) H3) as (t & Ht & E). destruct (psi_d_pos t ltac:(lra)) as [_ P]. nra.
Qed.
Lemma d_pos t : 0 < dsum (conf n) (cos (2 * t)) <= 135 / 100.
Proof. pose proof (cos_abs1 (2 * t)) as C. pose proof (conf_d n _ Hn C) as H. apply Rabs_le_between in H. apply Rabs_le_between in C. nra. Qed.
Lemma s_range x : - (PI / 2) < x < PI / 2 -> - (PI / 2) < ssum (conf n) x < PI / 2.
Proof.
  intros H. assert (I : forall x y, x < y -> ssum (conf n) x < ssum (conf n) y).
  { intros u v Huv. destruct (MVT_gen (ssum (conf n)) u v (fun t => dsum (conf n) (cos (2 * t)))) as (c & _ & E).
    - intros t _. apply ssum_derive.
    - intros t _. apply derivable_continuous_pt. eexists. apply is_derive_Reals, ssum_derive.
    - pose proof (d_pos c). nra. }
  pose proof (I x (PI / 2) ltac:(lra)) as A. pose proof (I (- (PI / 2)) x ltac:(lra)) as B. rewrite ssum_opp, ssum_PI2 in B. rewrite ssum_PI2 in A. lra.
Qed.
Let e3 := 15600 * n ^ 6.
Lemma H_derive x : is_derive (fun x => psi (ssum (conf n) (gd x))) x
  ((1 - n) ^ 2 / (rad2 n (cos (2 * ssum (conf n) (gd x))) * cos (ssum (conf n) (gd x))) * (dsum (conf n) (cos (2 * gd x)) * cos (gd x))).
Proof.
  apply is_derive_Reals. apply (derivable_pt_lim_comp (fun x => ssum (conf n) (gd x)) psi).
  - apply (derivable_pt_lim_comp gd (ssum (conf n))); apply is_derive_Reals; [apply gd_derive|apply ssum_derive].
  - apply is_derive_Reals, D, s_range, gd_bound.
Qed.
Lemma H_close x : Rabs (psi (ssum (conf n) (gd x)) - x) <= e3 * Rabs x.
Proof.
  pose proof (derive_close (fun x => psi (ssum (conf n) (gd x))) (fun x => x) _ (fun _ => 1) e3 H_derive) as H.
  assert (I1 : forall t, is_derive (fun x : R => x) t 1) by (intros t; auto_derive; [exact I|reflexivity]). specialize (H I1).
  assert (H3 : forall t, Rabs ((1 - n) ^ 2 / (rad2 n (cos (2 * ssum (conf n) (gd t))) * cos (ssum (conf n) (gd t))) * (dsum (conf n) (cos (2 * gd t)) * cos (gd t)) - 1) <= e3).
  { intros t. pose proof (gd_bound t) as G. destruct (psi_d_pos (gd t) G) as [C _]. set (u := gd t) in *.
    destruct (cos_ssum (conf n) u) as (th & th' & T & T' & E).
    assert (E2 : cos (2 * ssum (conf n) u) = (1 + cos (2 * u)) * brk (cos (2 * u)) (vsum (conf n) (cos (2 * u))) th th' ^ 2 - 1).
    { rewrite cos_2a_cos, E, (cos_2a_cos u). ring. }
    pose proof (conf_res n (cos (2 * u)) th th' Hn (cos_abs1 _) T T') as Q. cbv zeta in Q. rewrite <- E2 in Q. rewrite E.
    pose proof (conf_brk n (cos (2 * u)) th th' Hn (cos_abs1 _) T T') as BB. pose proof (cos_abs1 (2 * u)) as Cu. 
    destruct (rad2_lo n (cos (2 * ssum (conf n) u)) Hn (cos_abs1 _)) as [L _]. set (X := rad2 n (cos (2 * ssum (conf n) u))) in *. set (B := brk _ _ _ _) in *. set (d := dsum (conf n) (cos (2 * u))) in *.
    assert (B1 : 73 / 100 <= B). { apply Rabs_le_between in BB. apply Rabs_le_between in Cu. assert (0 <= n ^ 2 <= 1 / 361) by (split; [apply pow2_ge_0|clear - Hn; nra]). assert (n * (1 - cos (2 * u)) <= 1 / 19 * 2) by (apply Rmult_le_compat; lra). lra. }
    assert (X1 : 897 / 1000 <= X) by (assert (897 / 1000 <= (1 - n) ^ 2) by nra; lra). assert (BX : 654 / 1000 <= B * X) by nra.
    replace ((1 - n) ^ 2 / (X * (cos u * B)) * (d * cos u) - 1) with (((1 - n) ^ 2 * d - B * X) / (B * X)) by (field; repeat split; nra).
    unfold Rdiv. rewrite Rabs_mult, (Rabs_right (/ (B * X))) by (apply Rle_ge, Rlt_le, Rinv_0_lt_compat; lra).
    apply Rmult_le_reg_r with (B * X); [lra|]. rewrite Rmult_assoc, Rinv_l, Rmult_1_r by lra. eapply Rle_trans; [exact Q|]. unfold e3. assert (N6 : 0 <= n ^ 6) by (apply pow_le; lra). clear - N6 BX. nra. }
  specialize (H H3 0 x). cbn beta in H. rewrite gd_0, ssum_0, Z, !Rminus_0_r in H. exact H.
Qed.
Lemma gd_le x : 0 <= x -> psi (gd x) <= x.
Proof.
  intros Hx. apply Rplus_le_reg_r with (- psi (gd x)). rewrite Rplus_opp_r. change (0 <= x - psi (gd x)).
  assert (E : 0 - psi (gd 0) <= x - psi (gd x)); [|rewrite gd_0, Z in E; lra].
  apply (incr_of_derive (fun x => x - psi (gd x)) (fun x => 1 - (1 - n) ^ 2 / (rad2 n (cos (2 * gd x)) * cos (gd x)) * cos (gd x))); [| |exact Hx].
  - intros t. apply is_derive_Reals, derivable_pt_lim_minus; [apply derivable_pt_lim_id|]. apply (derivable_pt_lim_comp gd psi); apply is_derive_Reals; [apply gd_derive|apply D, gd_bound].
  - intros t. destruct (psi_d_pos (gd t) (gd_bound t)) as [C _]. destruct (rad2_lo n (cos (2 * gd t)) Hn (cos_abs1 _)) as [L _]. set (X := rad2 n (cos (2 * gd t))) in *.
    assert (P : 0 < (1 - n) ^ 2) by (apply pow_lt; lra). replace ((1 - n) ^ 2 / (X * cos (gd t)) * cos (gd t)) with ((1 - n) ^ 2 / X) by (field; lra).
    assert ((1 - n) ^ 2 / X <= 1); [|lra]. apply Rmult_le_reg_r with X; [lra|]. unfold Rdiv. rewrite Rmult_assoc, Rinv_l, Rmult_1_r by lra. lra.
Qed.
Lemma gd_nonneg x : 0 <= x -> 0 <= gd x.
Proof. intros [H|H]; [rewrite <- gd_0; apply Rlt_le, gd_incr, H|rewrite <- H, gd_0; lra]. Qed.
Lemma v_nonneg t : 0 <= vsum (conf n) (cos (2 * t)).
Proof. pose proof (conf_v n _ Hn (cos_abs1 (2 * t))) as H. apply Rabs_le_between in H. nra. Qed.
Theorem conf_inv_pos p : 0 <= p < PI / 2 -> Rabs (ssum (conf n) (gd (psi p)) - p) <= 19300 * n ^ 6.
Proof.
  intros Hp. pose proof PI_RGT_0 as PP. set (x := psi p).
  assert (X0 : 0 <= x). { unfold x. rewrite <- Z. destruct (Req_dec p 0) as [->|N]; [lra|]. apply Rlt_le, psi_incr; lra. }
  pose proof (gd_nonneg x X0) as G0. pose proof (gd_bound x) as GB. set (c := gd x) in *. set (q := ssum (conf n) c).
  assert (Q1 : c <= q < PI / 2).
  { split; [|apply s_range; exact GB]. unfold q, ssum. rewrite del_v. pose proof (v_nonneg c). assert (0 <= sin (2 * c)) by (apply sin_ge_0; lra). nra. }
  assert (P1 : c <= p). { destruct (Rle_dec c p) as [L|L]; [exact L|]. exfalso. assert (psi p < psi c) by (apply psi_incr; lra). pose proof (gd_le x X0) as G. fold c in G. fold x in H. lra. }
  pose proof (H_close x) as H. fold c in H. fold q in H. rewrite (Rabs_right x) in H by lra.
  assert (M : forall u v, c <= u -> u <= v -> v < PI / 2 -> psi v - psi u <= e3 * x -> v - u <= 19300 * n ^ 6).
  { intros u v Hu Huv Hv Hd. destruct (psi_mvt u v ltac:(lra) Huv Hv) as (t & Ht & E). rewrite E in Hd. destruct (psi_d_pos t ltac:(lra)) as [C _].
    destruct (rad2_lo n (cos (2 * t)) Hn (cos_abs1 _)) as [L U]. set (X := rad2 n (cos (2 * t))) in *. pose proof (gd_small x X0) as GS. fold c in GS.
    assert (Ct : cos t <= cos c) by (apply cos_decr_1; lra).
    assert (P : 0 < (1 - n) ^ 2) by (apply pow_lt; lra). assert (N6 : 0 <= n ^ 6) by (apply pow_le; lra). assert (E3 : 0 <= e3) by (unfold e3; lra).
    assert (A : (1 - n) ^ 2 * (v - u) <= e3 * (X * (x * cos t))).
    { apply Rmult_le_reg_r with (/ (X * cos t)); [apply Rinv_0_lt_compat, Rmult_lt_0_compat; lra|]. replace ((1 - n) ^ 2 * (v - u) * / (X * cos t)) with ((1 - n) ^ 2 / (X * cos t) * (v - u)) by (unfold Rdiv; ring).
      replace (e3 * (X * (x * cos t)) * / (X * cos t)) with (e3 * x) by (field; lra). exact Hd. }
    assert (B : x * cos t <= 1) by (assert (x * cos t <= x * cos c) by (apply Rmult_le_compat_l; lra); lra).
    assert (F : (1 - n) ^ 2 * (v - u) <= e3 * ((1 + n) ^ 2)).
    { eapply Rle_trans; [exact A|]. apply Rmult_le_compat_l; [exact E3|]. rewrite <- (Rmult_1_r ((1 + n) ^ 2)). apply Rmult_le_compat; [lra|apply Rmult_le_pos; lra|lra|lra]. }
    assert (K : (1 + n) ^ 2 <= 1235 / 1000 * (1 - n) ^ 2) by nra.
    apply Rmult_le_reg_l with ((1 - n) ^ 2); [exact P|]. eapply Rle_trans; [exact F|]. apply Rle_trans with (e3 * (1235 / 1000 * (1 - n) ^ 2)); [apply Rmult_le_compat_l; lra|].
    unfold e3. replace (15600 * n ^ 6 * (1235 / 1000 * (1 - n) ^ 2)) with ((1 - n) ^ 2 * (15600 * 1235 / 1000 * n ^ 6)) by field. apply Rmult_le_compat_l; lra. }
  fold x in M. apply Rabs_le_between in H. assert (Ex : psi p = x) by reflexivity. clearbody x. apply Rabs_le. destruct (Rle_dec p q) as [L|L].
  - assert (0 <= n ^ 6) by (apply pow_le; lra). pose proof (M p q P1 L (proj2 Q1) ltac:(lra)). lra.
  - assert (0 <= n ^ 6) by (apply pow_le; lra). pose proof (M q p (proj1 Q1) ltac:(lra) (proj2 Hp) ltac:(lra)). lra.
Qed.
End Conformal.
