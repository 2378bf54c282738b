(** The rectifying latitude and the meridian arc length. *)
From Coq Require Import QArith List Reals Lra Lia Psatz.
Import ListNotations.
From Coquelicot Require Import Coquelicot.
From Verif Require Import PyMath L_PyMath L_poly L_series1 L_series2 L_aux1.
From Verif Require L_vin3.
Open Scope R_scope.

Lemma incr_of_derive f df x y : (forall t, is_derive f t (df t)) -> (forall t, 0 <= df t) -> x <= y -> f x <= f y.
Proof.
  intros D P H. destruct (MVT_gen f x y df) as (c & _ & E).
  - intros t _. apply D.
  - intros t _. apply derivable_continuous_pt. exists (df t). apply is_derive_Reals. apply D.
  - pose proof (P c). nra.
Qed.
(** Closeness of derivatives, relative to one of them. *)
Lemma rel_close F G f g e : (forall t, is_derive F t (f t)) -> (forall t, is_derive G t (g t)) ->
  (forall t, 0 <= g t) -> (forall t, Rabs (f t - g t) <= e * g t) -> forall x y, Rabs ((F y - F x) - (G y - G x)) <= e * Rabs (G y - G x).
Proof.
  intros DF DG Hg H.
  assert (W : forall x y, x <= y -> Rabs ((F y - F x) - (G y - G x)) <= e * (G y - G x)).
  { intros x y Hxy. 
    assert (A : e * G x - (F x - G x) <= e * G y - (F y - G y)).
    { apply (incr_of_derive (fun t => e * G t - (F t - G t)) (fun t => e * g t - (f t - g t))); [| |exact Hxy].
      - intros t. apply is_derive_Reals. apply derivable_pt_lim_minus; [apply derivable_pt_lim_scal|apply derivable_pt_lim_minus]; apply is_derive_Reals; auto.
      - intros t. pose proof (H t) as Q. apply Rabs_le_between in Q. lra. }
    assert (B : e * G x + (F x - G x) <= e * G y + (F y - G y)).
    { apply (incr_of_derive (fun t => e * G t + (F t - G t)) (fun t => e * g t + (f t - g t))); [| |exact Hxy].
      - intros t. apply is_derive_Reals. apply derivable_pt_lim_plus; [apply derivable_pt_lim_scal|apply derivable_pt_lim_minus]; apply is_derive_Reals; auto.
      - intros t. pose proof (H t) as Q. apply Rabs_le_between in Q. lra. }
    apply Rabs_le. lra. }
  intros x y. assert (M : forall x y, x <= y -> G x <= G y) by (intros u v Huv; apply (incr_of_derive G g u v DG Hg Huv)).
  destruct (Rle_dec x y) as [Hxy|Hxy].
  - rewrite (Rabs_right (G y - G x)) by (pose proof (M x y Hxy); lra). apply W; exact Hxy.
  - replace ((F y - F x) - (G y - G x)) with (- ((F x - F y) - (G x - G y))) by ring. rewrite Rabs_Ropp.
    replace (G y - G x) with (- (G x - G y)) by ring. rewrite (Rabs_Ropp (G x - G y)), (Rabs_right (G x - G y)) by (assert (Hyx : y <= x) by lra; pose proof (M y x Hyx); lra). apply W. lra.
Qed.

Section Meridian.
Variable n : R.
Hypothesis Hn : 0 <= n <= 1 / 19.
(** [mer] is the meridian arc length from the equator, over a / (1 + n). *)
Variable mer : R -> R.
Hypothesis D : forall x, is_derive mer x (mrad n (cos (2 * x))).
Hypothesis Z : mer 0 = 0.

Lemma mp x : 4 / 5 <= mrad n (cos (2 * x)) <= 6 / 5. Proof. apply mrad_pos; [exact Hn|apply cos_abs1]. Qed.
Lemma mer_lo x y : 4 / 5 * Rabs (y - x) <= Rabs (mer y - mer x) <= 6 / 5 * Rabs (y - x).
Proof.
  destruct (MVT_gen mer x y (fun x => mrad n (cos (2 * x)))) as (c & _ & E).
  - intros t _. apply D.
  - intros t _. apply derivable_continuous_pt. eexists. apply is_derive_Reals. apply D.
  - rewrite E, Rabs_mult. pose proof (mp c) as M. rewrite (Rabs_right (mrad _ _)) by lra. pose proof (Rabs_pos (y - x)). nra.
Qed.
Lemma mer_incr x y : x < y -> mer x < mer y.
Proof.
  intros H. destruct (MVT_gen mer x y (fun x => mrad n (cos (2 * x)))) as (c & _ & E).
  - intros t _. apply D.
  - intros t _. apply derivable_continuous_pt. eexists. apply is_derive_Reals. apply D.
  - pose proof (mp c). nra.
Qed.
Lemma n_pow k : 0 <= n ^ k. Proof. apply pow_le. lra. Qed.
Lemma rect_rel x y : Rabs (rmean n * (ssum (rect n) y - ssum (rect n) x) - (mer y - mer x)) <= 9000 * n ^ 8 * Rabs (mer y - mer x).
Proof.
  rewrite Rmult_minus_distr_l.
  apply (rel_close (fun x => rmean n * ssum (rect n) x) mer (fun x => rmean n * dsum (rect n) (cos (2 * x))) (fun x => mrad n (cos (2 * x))) (9000 * n ^ 8)).
  - intros t. apply is_derive_Reals, derivable_pt_lim_scal, is_derive_Reals, ssum_derive.
  - exact D.
  - intros t. pose proof (mp t). lra.
  - intros t. apply rect_close; [exact Hn|apply cos_abs1].
Qed.
(** the code's series, relative to the length *)
Definition rel5 : R := n ^ 5 * (11 + 20 * n + 9000 * n ^ 3).
Lemma rcode_rel x y : Rabs (rmean n * (ssum (rcode n) y - ssum (rcode n) x) - (mer y - mer x)) <= rel5 * Rabs (mer y - mer x).
Proof.
  rewrite Rmult_minus_distr_l.
  apply (rel_close (fun x => rmean n * ssum (rcode n) x) mer (fun x => rmean n * dsum (rcode n) (cos (2 * x))) (fun x => mrad n (cos (2 * x))) rel5).
  - intros t. apply is_derive_Reals, derivable_pt_lim_scal, is_derive_Reals, ssum_derive.
  - exact D.
  - intros t. pose proof (mp t). lra.
  - intros t. pose proof (rect_close n (cos (2 * t)) Hn (cos_abs1 _)) as B. pose proof (mp t) as M. set (g := mrad n (cos (2 * t))) in *.
    pose proof (dsum_sub_bound (rcode n) (rect n) t) as C. destruct (code_diff n Hn) as (D1 & D2 & D3 & D4 & D5 & D6 & D7).
    pose proof (n_pow 5). pose proof (n_pow 6). pose proof (n_pow 7). pose proof (n_pow 8).
    assert (N7 : n ^ 7 <= 1 / 19 * n ^ 6) by (replace (n ^ 7) with (n * n ^ 6) by ring; apply Rmult_le_compat_r; lra).
    assert (C' : Rabs (dsum (rcode n) (cos (2 * t)) - dsum (rect n) (cos (2 * t))) <= 87 / 10 * n ^ 5 + 10 * n ^ 6 ) by lra. clear C.
    pose proof (rmean_pos n Hn) as Mm.
    replace (rmean n * dsum (rcode n) (cos (2 * t)) - g) with (rmean n * (dsum (rcode n) (cos (2 * t)) - dsum (rect n) (cos (2 * t))) + (rmean n * dsum (rect n) (cos (2 * t)) - g)) by ring.
    eapply Rle_trans; [apply Rabs_triang|]. rewrite Rabs_mult, (Rabs_right (rmean n)) by lra.
    apply Rle_trans with (1001 / 1000 * (87 / 10 * n ^ 5 + 10 * n ^ 6) + 9000 * n ^ 8 * g).
    + apply Rplus_le_compat; [|exact B]. apply Rmult_le_compat; [lra|apply Rabs_pos|lra|exact C'].
    + unfold rel5. replace (n ^ 5 * (11 + 20 * n + 9000 * n ^ 3) * g) with ((11 * n ^ 5 + 20 * n ^ 6) * g + 9000 * n ^ 8 * g) by ring.
      apply Rplus_le_compat_r. nra.
Qed.
(** ** the true rectifying latitude *)
Definition mu (x : R) : R := PI / 2 * (mer x / mer (PI / 2)).
Lemma quad_pos : 0 < mer (PI / 2). Proof. rewrite <- Z. apply mer_incr. pose proof PI_RGT_0. lra. Qed.
Lemma eps8 : 0 <= 9000 * n ^ 8 <= 1 / 1000000.
Proof.
  pose proof (n_pow 8). assert (n ^ 8 <= (1 / 19) ^ 8) by (apply pow_incr; lra). split; [lra|]. apply Rle_trans with (9000 * (1 / 19) ^ 8); [lra|]. simpl; lra.
Qed.
Lemma quad_close : Rabs (rmean n * (PI / 2) - mer (PI / 2)) <= 9000 * n ^ 8 * mer (PI / 2).
Proof.
  pose proof (rect_rel 0 (PI / 2)) as H. rewrite ssum_0, ssum_PI2, Z, !Rminus_0_r in H. rewrite (Rabs_right (mer (PI / 2))) in H by (pose proof quad_pos; lra). exact H.
Qed.
Lemma mu_0 : mu 0 = 0. Proof. unfold mu. rewrite Z. unfold Rdiv. ring. Qed.
Lemma mu_PI2 : mu (PI / 2) = PI / 2. Proof. unfold mu. field. pose proof quad_pos. lra. Qed.
Lemma mer_odd x : mer (- x) = - mer x.
Proof.
  assert (H : Rabs ((mer x - mer 0) - (- mer (- x) - - mer (- 0))) <= 0 * Rabs (x - 0)).
  { apply (derive_close mer (fun x => - mer (- x)) (fun x => mrad n (cos (2 * x))) (fun x => mrad n (cos (2 * x)))).
    - exact D.
    - intros t. replace (mrad n (cos (2 * t))) with (- - mrad n (cos (2 * - t))) by (replace (2 * - t) with (- (2 * t)) by ring; rewrite cos_neg; ring).
      apply is_derive_Reals. apply derivable_pt_lim_opp. replace (- mrad n (cos (2 * - t))) with (mrad n (cos (2 * - t)) * -1) by ring.
      apply (derivable_pt_lim_comp (fun x => - x) mer t (-1)); [|apply is_derive_Reals, D].
      replace (-1) with (- 1) by ring. apply derivable_pt_lim_opp, derivable_pt_lim_id.
    - intros t. rewrite Rminus_diag_eq, Rabs_R0 by reflexivity. lra. }
  rewrite Ropp_0, Z, Ropp_0, !Rminus_0_r, Rmult_0_l in H. pose proof (Rabs_pos (mer x - - mer (- x))). 
  destruct (Req_dec (mer x - - mer (- x)) 0) as [E|E]; [lra|]. apply Rabs_pos_lt in E. lra.
Qed.
Lemma mu_range x : - (PI / 2) <= x <= PI / 2 -> Rabs (mu x) <= PI / 2.
Proof.
  intros H. pose proof quad_pos as Q. assert (I : forall u v, u <= v -> mer u <= mer v) by (intros u v [L|E]; [apply Rlt_le, mer_incr; exact L|rewrite E; lra]).
  pose proof (I x (PI / 2) ltac:(lra)). pose proof (I (- (PI / 2)) x ltac:(lra)) as L. rewrite mer_odd in L.
  unfold mu. rewrite Rabs_mult, (Rabs_right (PI / 2)) by lra. apply Rle_trans with (PI / 2 * 1); [|lra]. apply Rmult_le_compat_l; [lra|].
  unfold Rdiv. rewrite Rabs_mult, (Rabs_right (/ _)) by (apply Rle_ge, Rlt_le, Rinv_0_lt_compat; lra).
  apply Rmult_le_reg_r with (mer (PI / 2)); [lra|]. rewrite Rmult_assoc, Rinv_l, Rmult_1_r, Rmult_1_l by lra. apply Rabs_le. lra.
Qed.
Lemma rect_mu x : Rabs (ssum (rect n) x - mu x) <= 18001 * n ^ 8 * Rabs (mu x).
Proof.
  pose proof (rect_rel 0 x) as A. rewrite ssum_0, Z, !Rminus_0_r in A. pose proof quad_close as B. pose proof quad_pos as Q. pose proof (rmean_pos n Hn) as M.
  pose proof eps8 as E8. set (e := 9000 * n ^ 8) in *. set (q := mer (PI / 2)) in *. set (m := mer x) in *. set (s := ssum (rect n) x) in *. set (r := rmean n) in *.
  assert (Mu : m = mu x * q / (PI / 2)) by (unfold mu; fold m q; pose proof PI_RGT_0; field; lra). 
  (* r s = m + e1, r PI/2 = q + e2 *)
  assert (P : 0 < PI / 2) by (pose proof PI_RGT_0; lra).
  assert (K : r * (PI / 2) * (s - mu x) = (r * s - m) * (PI / 2) - mu x * (r * (PI / 2) - q)) by (rewrite Mu; field; lra).
  assert (K2 : Rabs (r * (PI / 2) * (s - mu x)) <= 2 * e * q * Rabs (mu x)).
  { rewrite K. unfold Rminus at 1. eapply Rle_trans; [apply Rabs_triang|]. rewrite Rabs_Ropp, !Rabs_mult, (Rabs_right (PI / 2)) by lra.
    replace (2 * e * q * Rabs (mu x)) with (e * Rabs m * (PI / 2) + Rabs (mu x) * (e * q)).
    - apply Rplus_le_compat; [apply Rmult_le_compat_r; [lra|exact A]|apply Rmult_le_compat_l; [apply Rabs_pos|exact B]].
    - rewrite Mu. unfold Rdiv. rewrite !Rabs_mult, (Rabs_right q), (Rabs_right (/ (PI * / 2))) by (try lra; apply Rle_ge, Rlt_le, Rinv_0_lt_compat; lra). field. lra. }
  rewrite Rabs_mult, (Rabs_right (r * (PI / 2))) in K2 by (apply Rle_ge, Rmult_le_pos; lra).
  assert (Q2 : q <= r * (PI / 2) * (1 + 2 * e)).
  { apply Rabs_le_between in B. assert (q * (1 - e) <= r * (PI / 2)) by lra. assert (q * (1 - e) * (1 + 2 * e) <= r * (PI / 2) * (1 + 2 * e)) by (apply Rmult_le_compat_r; lra). 
    assert (1 <= (1 - e) * (1 + 2 * e)) by nra. assert (q * 1 <= q * ((1 - e) * (1 + 2 * e))) by (apply Rmult_le_compat_l; lra). lra. }
  assert (0 < r * (PI / 2)) by (apply Rmult_lt_0_compat; lra).
  apply Rmult_le_reg_l with (r * (PI / 2)); [assumption|]. eapply Rle_trans; [exact K2|].
  apply Rle_trans with (2 * e * (r * (PI / 2) * (1 + 2 * e)) * Rabs (mu x)).
  - apply Rmult_le_compat_r; [apply Rabs_pos|]. apply Rmult_le_compat_l; lra.
  - replace (18001 * n ^ 8) with ((2 + 1 / 9000) * e) by (unfold e; field). replace (2 * e * (r * (PI / 2) * (1 + 2 * e)) * Rabs (mu x)) with (r * (PI / 2) * (e * (2 * (1 + 2 * e)) * Rabs (mu x))) by ring.
    apply Rmult_le_compat_l; [lra|]. apply Rmult_le_compat_r; [apply Rabs_pos|]. nra.
Qed.
(** forward conversion *)
Definition rect_err : R := n ^ 5 * (11 / 10 + 2 * n + 30000 * n ^ 3).
Theorem rcode_mu x : - (PI / 2) <= x <= PI / 2 -> Rabs (ssum (rcode n) x - mu x) <= rect_err.
Proof.
  intros Hx. pose proof (rect_mu x) as A. pose proof (mu_range x Hx) as M. destruct (code_diff n Hn) as (D1 & D2 & D3 & D4 & D5 & D6 & D7).
  pose proof (del_bound (csub (rcode n) (rect n)) x) as B. rewrite <- ssum_sub in B. unfold csub in B; cbn [k1 k2 k3 k4 k5 k6 k7] in B.
  replace (ssum (rcode n) x - mu x) with (ssum (rcode n) x - ssum (rect n) x + (ssum (rect n) x - mu x)) by ring. eapply Rle_trans; [apply Rabs_triang|].
  pose proof (n_pow 5). pose proof (n_pow 6). pose proof (n_pow 7). pose proof (n_pow 8). pose proof L_vin3.pi_315.
  assert (N7 : n ^ 7 <= 1 / 19 * n ^ 6) by (replace (n ^ 7) with (n * n ^ 6) by ring; apply Rmult_le_compat_r; lra).
  assert (18001 * n ^ 8 * Rabs (mu x) <= 30000 * n ^ 8).
  { apply Rle_trans with (18001 * n ^ 8 * (315 / 200)); [apply Rmult_le_compat_l; lra|lra]. }
  unfold rect_err. replace (n ^ 5 * (11 / 10 + 2 * n + 30000 * n ^ 3)) with (11 / 10 * n ^ 5 + 2 * n ^ 6 + 30000 * n ^ 8) by ring. lra.
Qed.
(** ** backward *)
Lemma cos2_ssum h y : let c := cos (2 * y) in let v := vsum h c in let z := 4 * (1 - c ^ 2) * v ^ 2 in
  exists th th', Rabs th <= 1 /\ Rabs th' <= 1 /\
  cos (2 * ssum h y) = c * (1 - z / 2 + z ^ 2 / 24 - th * z ^ 3 / 720) - 2 * (1 - c ^ 2) * v * (1 - z / 6 + z ^ 2 / 120 - th' * z ^ 3 / 5040).
Proof.
  cbv zeta. unfold ssum. rewrite del_v. set (c := cos (2 * y)). set (s := sin (2 * y)). set (v := vsum h c).
  assert (S : s ^ 2 = 1 - c ^ 2) by (unfold s, c; pose proof (sc1 (2 * y)); nra).
  destruct (cos_taylor (2 * (s * v))) as (th & T & C). destruct (sin_taylor (2 * (s * v))) as (th' & T' & C').
  exists th, th'. split; [exact T|split; [exact T'|]]. replace (2 * (y + s * v)) with (2 * y + 2 * (s * v)) by ring. rewrite cos_plus, C, C'. fold c s.
  assert (Z2 : (2 * (s * v)) ^ 2 = 4 * (1 - c ^ 2) * v ^ 2) by (rewrite <- S; ring).
  replace ((2 * (s * v)) ^ 4) with (((2 * (s * v)) ^ 2) ^ 2) by ring. replace ((2 * (s * v)) ^ 6) with (((2 * (s * v)) ^ 2) ^ 3) by ring. rewrite Z2.
  set (z := 4 * (1 - c ^ 2) * v ^ 2). rewrite <- S. ring.
Qed.
Lemma comp_derive h y : is_derive (fun y => mer (ssum h y)) y (mrad n (cos (2 * ssum h y)) * dsum h (cos (2 * y))).
Proof. apply is_derive_Reals. apply (derivable_pt_lim_comp (ssum h) mer); apply is_derive_Reals; [apply ssum_derive|apply D]. Qed.
Lemma recti_rel y : Rabs (mer (ssum (recti n) y) - rmean n * y) <= 33000 * n ^ 7 * Rabs y.
Proof.
  pose proof (derive_close (fun y => mer (ssum (recti n) y)) (fun y => rmean n * y) (fun y => mrad n (cos (2 * ssum (recti n) y)) * dsum (recti n) (cos (2 * y))) (fun _ => rmean n) (33000 * n ^ 7)) as H.
  specialize (H (comp_derive (recti n))). assert (H2 : forall t, is_derive (fun y => rmean n * y) t (rmean n)) by (intros t; auto_derive; [exact I|ring]).
  specialize (H H2). assert (H3 : forall t, Rabs (mrad n (cos (2 * ssum (recti n) t)) * dsum (recti n) (cos (2 * t)) - rmean n) <= 33000 * n ^ 7).
  { intros t. destruct (cos2_ssum (recti n) t) as (th & th' & T & T' & E). pose proof (recti_res n (cos (2 * t)) th th' _ _ Hn (cos_abs1 _) T T' eq_refl eq_refl) as R0.
    cbv zeta in E. rewrite <- E in R0. clear E T T' th th'. pose proof (cos_abs1 (2 * ssum (recti n) t)) as Hc'. set (c' := cos (2 * ssum (recti n) t)) in *. 
    destruct (dsum_pos n (cos (2 * t)) Hn (cos_abs1 _)) as [_ P]. set (d := dsum (recti n) (cos (2 * t))) in *. 
    destruct (sqrt_rad2 n c' Hn Hc') as [[L U] Q]. unfold mrad. set (x := sqrt (rad2 n c')) in *. rewrite <- Q in R0. pose proof (rmean_pos n Hn) as M. set (r := rmean n) in *.
    replace ((1 - n ^ 2) ^ 4 * d ^ 2 - r ^ 2 * (x ^ 2) ^ 3) with (((1 - n ^ 2) ^ 2 * d - r * x ^ 3) * ((1 - n ^ 2) ^ 2 * d + r * x ^ 3)) in R0 by ring.
    assert (X3 : 85 / 100 <= x ^ 3). { apply Rle_trans with ((18 / 19) ^ 3); [simpl; lra|apply pow_incr; lra]. }
    assert (A0 : 0 <= (1 - n ^ 2) ^ 2 * d) by (apply Rmult_le_pos; [apply pow2_ge_0|lra]). assert (A1 : x ^ 3 <= r * x ^ 3) by (rewrite <- (Rmult_1_l (x ^ 3)) at 1; apply Rmult_le_compat_r; lra).
    rewrite Rabs_mult, (Rabs_right ((1 - n ^ 2) ^ 2 * d + r * x ^ 3)) in R0 by lra. set (N := (1 - n ^ 2) ^ 2 * d) in *.
    replace ((1 - n ^ 2) ^ 2 / x ^ 3 * d - r) with ((N - r * x ^ 3) / x ^ 3) by (unfold N; field; lra).
    unfold Rdiv. rewrite Rabs_mult, (Rabs_right (/ x ^ 3)) by (apply Rle_ge, Rlt_le, Rinv_0_lt_compat; lra).
    apply Rmult_le_reg_r with (x ^ 3); [lra|]. rewrite Rmult_assoc, Rinv_l, Rmult_1_r by lra. pose proof (n_pow 7) as N7.
    assert (Rabs (N - r * x ^ 3) * (85 / 100) <= 23000 * n ^ 7) by (eapply Rle_trans; [|exact R0]; apply Rmult_le_compat_l; [apply Rabs_pos|lra]). 
    apply Rle_trans with (33000 * n ^ 7 * (85 / 100)); [lra|apply Rmult_le_compat_l; lra]. }
  specialize (H H3 0 y). cbn beta in H. rewrite ssum_0, Z, Rmult_0_r, !Rminus_0_r in H. exact H.
Qed.
(** The inverse of the code against the true geodetic latitude [x] of rectifying latitude [mu x]. *)
Definition recti_err : R := n ^ 5 * (71 / 10 + 13 * n + 67000 * n ^ 2).
Theorem ricode_mu x : - (PI / 2) <= x <= PI / 2 -> Rabs (ssum (ricode n) (mu x) - x) <= recti_err.
Proof.
  intros Hx. pose proof (mu_range x Hx) as M. pose proof (recti_rel (mu x)) as A. destruct (icode_diff n Hn) as (D1 & D2 & D3 & D4 & D5 & D6 & D7).
  pose proof (del_bound (csub (ricode n) (recti n)) (mu x)) as B. rewrite <- ssum_sub in B. unfold csub in B; cbn [k1 k2 k3 k4 k5 k6 k7] in B.
  pose proof (n_pow 5). pose proof (n_pow 6). pose proof (n_pow 7) as N7. pose proof (n_pow 8) as N8. pose proof L_vin3.pi_315 as PI315. pose proof PI_RGT_0 as PP.
  assert (N87 : n ^ 8 <= 1 / 19 * n ^ 7) by (replace (n ^ 8) with (n * n ^ 7) by ring; apply Rmult_le_compat_r; lra).
  (* mer x = rmean * mu x up to quad_close *)
  assert (C : Rabs (rmean n * mu x - mer x) <= 10801 * n ^ 8 * Rabs (mu x)).
  { pose proof quad_close as Q. pose proof quad_pos as QP. pose proof (mer_lo 0 (PI / 2)) as [_ QU]. rewrite Z, !Rminus_0_r, !Rabs_right in QU by lra.
    replace (rmean n * mu x - mer x) with (mu x / (PI / 2) * (rmean n * (PI / 2) - mer (PI / 2))) by (unfold mu; field; lra).
    rewrite Rabs_mult. unfold Rdiv at 1. rewrite Rabs_mult, (Rabs_right (/ (PI / 2))) by (apply Rle_ge, Rlt_le, Rinv_0_lt_compat; lra).
    apply Rle_trans with (Rabs (mu x) * / (PI / 2) * (9000 * n ^ 8 * (6 / 5 * (PI / 2)))).
    - apply Rmult_le_compat_l; [apply Rmult_le_pos; [apply Rabs_pos|apply Rlt_le, Rinv_0_lt_compat; lra]|]. eapply Rle_trans; [exact Q|]. apply Rmult_le_compat_l; [lra|exact QU].
    - replace (Rabs (mu x) * / (PI / 2) * (9000 * n ^ 8 * (6 / 5 * (PI / 2)))) with (10800 * n ^ 8 * Rabs (mu x)) by (field; lra). apply Rmult_le_compat_r; [apply Rabs_pos|lra]. }
  assert (E : 4 / 5 * Rabs (ssum (recti n) (mu x) - x) <= 33600 * n ^ 7 * (PI / 2)).
  { pose proof (mer_lo x (ssum (recti n) (mu x))) as [L _]. eapply Rle_trans; [exact L|].
    replace (mer (ssum (recti n) (mu x)) - mer x) with (mer (ssum (recti n) (mu x)) - rmean n * mu x + (rmean n * mu x - mer x)) by ring. eapply Rle_trans; [apply Rabs_triang|].
    apply Rle_trans with (33600 * n ^ 7 * Rabs (mu x)); [|apply Rmult_le_compat_l; lra].
    replace (33600 * n ^ 7 * Rabs (mu x)) with (33000 * n ^ 7 * Rabs (mu x) + 600 * n ^ 7 * Rabs (mu x)) by ring. apply Rplus_le_compat; [exact A|].
    eapply Rle_trans; [exact C|]. apply Rmult_le_compat_r; [apply Rabs_pos|lra]. }
  assert (E' : Rabs (ssum (recti n) (mu x) - x) <= 66200 * n ^ 7).
  { assert (33600 * n ^ 7 * (PI / 2) <= 33600 * n ^ 7 * (315 / 200)) by (apply Rmult_le_compat_l; lra). lra. }
  replace (ssum (ricode n) (mu x) - x) with (ssum (ricode n) (mu x) - ssum (recti n) (mu x) + (ssum (recti n) (mu x) - x)) by ring. eapply Rle_trans; [apply Rabs_triang|].
  unfold recti_err. replace (n ^ 5 * (71 / 10 + 13 * n + 67000 * n ^ 2)) with (71 / 10 * n ^ 5 + 13 * n ^ 6 + 67000 * n ^ 7) by ring. lra.
Qed.
(** Lipschitz constants of the code's series *)
Lemma lip_of h K : (forall t, Rabs (dsum h (cos (2 * t))) <= K) -> forall x y, Rabs (ssum h y - ssum h x) <= K * Rabs (y - x).
Proof.
  intros H x y. destruct (MVT_gen (ssum h) x y (fun t => dsum h (cos (2 * t)))) as (c & _ & E).
  - intros t _. apply ssum_derive.
  - intros t _. apply derivable_continuous_pt. eexists. apply is_derive_Reals, ssum_derive.
  - rewrite E, Rabs_mult. apply Rmult_le_compat_r; [apply Rabs_pos|apply H].
Qed.
Lemma code_lip x y : Rabs (ssum (rcode n) y - ssum (rcode n) x) <= 14 / 10 * Rabs (y - x) /\ Rabs (ssum (ricode n) y - ssum (ricode n) x) <= 14 / 10 * Rabs (y - x).
Proof.
  split; apply lip_of; intros t; pose proof (cos_abs1 (2 * t)) as Hc; set (c := cos (2 * t)) in *.
  - assert (H : Rabs (dsum (rcode n) c - 1) <= 7 * n ^ 1). { unfold dsum, rcode; cbn [k1 k2 k3 k4 k5 k6 k7]. tm_le [n; c] (1#19)%Q 8%nat 1%nat (7#1)%Q; try assumption. }
    apply Rabs_le_between in H. apply Rabs_le. lra.
  - assert (H : Rabs (dsum (ricode n) c - 1) <= 7 * n ^ 1). { unfold dsum, ricode; cbn [k1 k2 k3 k4 k5 k6 k7]. tm_le [n; c] (1#19)%Q 8%nat 1%nat (7#1)%Q; try assumption. }
    apply Rabs_le_between in H. apply Rabs_le. lra.
Qed.
(** the round trip of the code *)
Theorem rcode_round x : - (PI / 2) <= x <= PI / 2 -> Rabs (ssum (ricode n) (ssum (rcode n) x) - x) <= recti_err + 14 / 10 * rect_err.
Proof.
  intros Hx. pose proof (ricode_mu x Hx) as A. pose proof (rcode_mu x Hx) as B. destruct (code_lip (mu x) (ssum (rcode n) x)) as [_ L].
  replace (ssum (ricode n) (ssum (rcode n) x) - x) with (ssum (ricode n) (mu x) - x + (ssum (ricode n) (ssum (rcode n) x) - ssum (ricode n) (mu x))) by ring. 
  eapply Rle_trans; [apply Rabs_triang|]. apply Rplus_le_compat; [exact A|]. eapply Rle_trans; [exact L|]. apply Rmult_le_compat_l; [lra|exact B].
Qed.
(** the equatorial-to-polar range is covered *)
Lemma mu_onto y : - (PI / 2) <= y <= PI / 2 -> exists x, - (PI / 2) <= x <= PI / 2 /\ mu x = y.
Proof.
  intros Hy. pose proof quad_pos as Q. pose proof PI_RGT_0 as P.
  destruct (IVT_gen mer (- (PI / 2)) (PI / 2) (y / (PI / 2) * mer (PI / 2))) as (x & Hx & E).
  - intros t. apply derivable_continuous_pt. eexists. apply is_derive_Reals, D.
  - rewrite mer_odd. rewrite Rmin_left, Rmax_right by lra. split.
    + apply Rmult_le_reg_r with (PI / 2); [lra|]. replace (y / (PI / 2) * mer (PI / 2) * (PI / 2)) with (y * mer (PI / 2)) by (field; lra). nra.
    + apply Rmult_le_reg_r with (PI / 2); [lra|]. replace (y / (PI / 2) * mer (PI / 2) * (PI / 2)) with (y * mer (PI / 2)) by (field; lra). nra.
  - rewrite Rmin_left, Rmax_right in Hx by lra. exists x. split; [exact Hx|]. unfold mu. rewrite E. field. lra.
Qed.
Theorem ricode_round y : - (PI / 2) <= y <= PI / 2 -> Rabs (ssum (rcode n) (ssum (ricode n) y) - y) <= rect_err + 14 / 10 * recti_err.
Proof.
  intros Hy. destruct (mu_onto y Hy) as (x & Hx & <-). pose proof (ricode_mu x Hx) as A. pose proof (rcode_mu x Hx) as B. destruct (code_lip x (ssum (ricode n) (mu x))) as [L _].
  replace (ssum (rcode n) (ssum (ricode n) (mu x)) - mu x) with (ssum (rcode n) x - mu x + (ssum (rcode n) (ssum (ricode n) (mu x)) - ssum (rcode n) x)) by ring. 
  eapply Rle_trans; [apply Rabs_triang|]. apply Rplus_le_compat; [exact B|]. eapply Rle_trans; [exact L|]. apply Rmult_le_compat_l; [lra|exact A].
Qed.
End Meridian.
