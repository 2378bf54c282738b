(** The rounding error of ecef2geodetic, step by step. *)
From Coq Require Import Reals ZArith Lra Lia Psatz.
From Flocq Require Import Core.
From Verif Require Import PyMath L_PyMath M_ellipsoid M_ecef M_float M_floatenu M_floatgeo Spec_float P_float L_float P_rounding L_float2 L_floatpi.
From Verif Require L_ecefacc2 L_vin3.
Open Scope R_scope.

Lemma sq_le_inv p q : 0 <= q -> p ^ 2 <= q ^ 2 -> p <= q.
Proof. intros H K. destruct (Rle_lt_dec p q) as [L|L]; [exact L|]. exfalso. nra. Qed.
Lemma pull_in p q : Rabs q <= 2 * Rabs p -> p * q <= 0 -> Rabs (p + q) <= Rabs p.
Proof.
  intros H K. apply sq_le_inv; [apply Rabs_pos|]. rewrite !pow2_abs. assert (E : p * q = - (Rabs p * Rabs q)) by (rewrite <- Rabs_mult; rewrite Rabs_left1 by exact K; ring).
  assert (q ^ 2 <= 2 * Rabs p * Rabs q). { rewrite <- (pow2_abs q). pose proof (Rabs_pos q). nra. } nra.
Qed.
Lemma tan_deriv u : - PI / 2 < u < PI / 2 -> derivable_pt_lim tan u (1 + tan u ^ 2).
Proof.
  intros H. assert (C : 0 < cos u) by (apply cos_gt_0; lra). assert (E : 1 + tan u ^ 2 = (cos u * cos u - - sin u * sin u) / (cos u)²) by (unfold tan, Rsqr; field; lra). rewrite E.
  apply (derivable_pt_lim_div sin cos); [apply derivable_pt_lim_sin|apply derivable_pt_lim_cos|lra].
Qed.
Lemma atan_tan_deriv k u : - PI / 2 < u < PI / 2 -> derivable_pt_lim (fun w => atan (k * tan w)) u (/ (1 + (k * tan u) ^ 2) * (k * (1 + tan u ^ 2))).
Proof.
  intros H. apply (derivable_pt_lim_comp (fun w => k * tan w) atan); [|apply derivable_pt_lim_atan]. apply (derivable_pt_lim_scal tan k u). now apply tan_deriv.
Qed.
Lemma atan_tan_slope k v : 1 <= k -> 0 <= / (1 + (k * v) ^ 2) * (k * (1 + v ^ 2)) <= k.
Proof.
  intros K. assert (P : 0 < 1 + (k * v) ^ 2) by (pose proof (pow2_ge_0 (k * v)); lra). pose proof (pow2_ge_0 v) as V. split.
  - apply Rmult_le_pos; [left; now apply Rinv_0_lt_compat|apply Rmult_le_pos; lra].
  - rewrite Rmult_comm. apply Rmult_le_reg_r with (1 + (k * v) ^ 2); [exact P|]. rewrite Rmult_assoc, Rinv_l, Rmult_1_r by lra. apply Rmult_le_compat_l; [lra|]. replace ((k * v) ^ 2) with (k ^ 2 * v ^ 2) by ring. assert (1 <= k ^ 2) by nra. nra.
Qed.
Lemma atan_tan_lip k u v : 1 <= k -> - PI / 2 < u < PI / 2 -> - PI / 2 < v < PI / 2 -> Rabs (atan (k * tan u) - atan (k * tan v)) <= k * Rabs (u - v).
Proof.
  intros K. assert (G : forall p q, p < q -> - PI / 2 < p < PI / 2 -> - PI / 2 < q < PI / 2 -> Rabs (atan (k * tan q) - atan (k * tan p)) <= k * Rabs (q - p)).
  { intros p q L P Q. destruct (MVT_cor2 (fun w => atan (k * tan w)) (fun w => / (1 + (k * tan w) ^ 2) * (k * (1 + tan w ^ 2))) p q L) as (c & E & C). { intros w W. apply atan_tan_deriv. lra. }
    cbv beta in E. rewrite E, Rabs_mult. apply Rmult_le_compat_r; [apply Rabs_pos|]. pose proof (atan_tan_slope k (tan c) K). rewrite Rabs_pos_eq; lra. }
  intros U V. destruct (Rtotal_order u v) as [L|[->|L]].
  - rewrite Rabs_minus_sym, (Rabs_minus_sym u v). now apply G.
  - rewrite !Rminus_diag_eq, Rabs_R0 by reflexivity. lra.
  - now apply G.
Qed.
Lemma e330 : / 10 ^ 300 <= uu * (1 / 10 ^ 20).
Proof.
  apply Rle_trans with (/ 10 ^ 40); [apply inv_le; lia|]. unfold uu. lra.
Qed.
Lemma rl_dbl_sqrt v : double (fl_sqrt v). Proof. apply rnd_double. Qed.
Lemma inv10 j v : (j <= 250)%nat -> / 10 ^ j <= v -> tny <= v.
Proof. intros J H. apply tny_300. apply Rle_trans with (2 := H). apply inv_le. lia. Qed.

Section Geo.
Variables (lk : libm2) (M : libm2_ok lk).
Let m := l_base lk.
Variables (a b x y z : R).
Hypothesis Ha : 1 <= a <= 10 ^ 30.
Hypothesis Hb : 9 / 10 * a <= b <= a.
Hypothesis Hf : a = b \/ b <= (1 - / 10 ^ 9) * a.
Hypothesis Dx : double x. Hypothesis Dy : double y. Hypothesis Dz : double z.
Hypothesis Fx : far x. Hypothesis Fy : far y. Hypothesis Fz : far z.
Let r := sqrt (x ^ 2 + y ^ 2 + z ^ 2).
Hypothesis Hr : 85 / 100 * a <= r <= 10 ^ 40.
Hypothesis Hp : / 10 ^ 80 <= hypot x y.

Definition gE2 : R := a ^ 2 - b ^ 2.
Definition gE : R := sqrt gE2.
Definition gA : R := r ^ 2 - gE ^ 2.
Definition gH : R := hypot gA (2 * gE * z).
Definition gU2 : R := 0.5 * gA + 0.5 * gH.
Definition gU : R := sqrt gU2.
Definition gW : R := hypot gU gE.

Lemma r_pos : 85 / 100 <= r. Proof. lra. Qed.
Lemma r2_eq : r ^ 2 = x ^ 2 + y ^ 2 + z ^ 2.
Proof. unfold r. apply pow2_sqrt. pose proof (pow2_ge_0 x). pose proof (pow2_ge_0 y). pose proof (pow2_ge_0 z). lra. Qed.
Lemma z_le : Rabs z <= r. Proof. apply sq_le_inv; [pose proof r_pos; lra|]. rewrite pow2_abs, r2_eq. pose proof (pow2_ge_0 x). pose proof (pow2_ge_0 y). lra. Qed.
Lemma x_le : Rabs x <= r. Proof. apply sq_le_inv; [pose proof r_pos; lra|]. rewrite pow2_abs, r2_eq. pose proof (pow2_ge_0 z). pose proof (pow2_ge_0 y). lra. Qed.
Lemma y_le : Rabs y <= r. Proof. apply sq_le_inv; [pose proof r_pos; lra|]. rewrite pow2_abs, r2_eq. pose proof (pow2_ge_0 x). pose proof (pow2_ge_0 z). lra. Qed.
Lemma p_le_r : hypot x y <= r. Proof. unfold hypot, r. apply sqrt_le_1_alt. pose proof (pow2_ge_0 z). lra. Qed.
Lemma a2_r : a ^ 2 <= 1385 / 1000 * r ^ 2. Proof. pose proof r_pos. assert (85 / 100 * a <= r) by lra. assert (0 < a) by lra. clear - H H0 H1. nra. Qed.
Lemma E2_b : 0 <= gE2 <= 19 / 100 * a ^ 2. Proof. unfold gE2. assert (1 <= a) by lra. assert (9/10*a <= b <= a) by lra. clear - H H0. nra. Qed.
Lemma E_sq : gE ^ 2 = gE2. Proof. unfold gE. apply pow2_sqrt. apply E2_b. Qed.
Lemma E_nn : 0 <= gE. Proof. apply sqrt_pos. Qed.
Lemma E2_r : gE2 <= 2632 / 10000 * r ^ 2. Proof. pose proof a2_r. pose proof E2_b. lra. Qed.
Lemma A_b : 7368 / 10000 * r ^ 2 <= gA <= r ^ 2. Proof. unfold gA. rewrite E_sq. pose proof E2_b. pose proof E2_r. lra. Qed.
Lemma z2_r : 0 <= z ^ 2 <= r ^ 2. Proof. rewrite r2_eq. pose proof (pow2_ge_0 x). pose proof (pow2_ge_0 y). pose proof (pow2_ge_0 z). lra. Qed.
Lemma H_sq : gH ^ 2 = gA ^ 2 + (2 * gE * z) ^ 2. Proof. unfold gH, hypot. apply pow2_sqrt. pose proof (pow2_ge_0 gA). pose proof (pow2_ge_0 (2 * gE * z)). lra. Qed.
Lemma H_nn : 0 <= gH. Proof. apply hypot_nonneg. Qed.
Lemma H_b : gA <= gH <= r ^ 2 + gE2.
Proof.
  pose proof A_b as A. pose proof H_sq as Q. pose proof H_nn as N. pose proof z2_r as Z. pose proof E2_b as E. pose proof E_sq as S. split; apply sq_le_inv; try lra.
  - rewrite Q. pose proof (pow2_ge_0 (2 * gE * z)). lra.
  - rewrite Q. replace ((2 * gE * z) ^ 2) with (4 * gE2 * z ^ 2) by (rewrite <- S; ring). unfold gA. rewrite S. assert (gE2 * z ^ 2 <= gE2 * r ^ 2) by (apply Rmult_le_compat_l; lra). clear - H. lra.
Qed.
Lemma U2_b : 7368 / 10000 * r ^ 2 <= gU2 <= r ^ 2.
Proof. pose proof A_b as A. pose proof H_b as H. pose proof E_sq as S. unfold gU2. unfold gA in *. rewrite S in *. lra. Qed.
Lemma r2_pos : 0 < r ^ 2. Proof. pose proof r_pos. clear - H. nra. Qed.
Lemma U_sq : gU ^ 2 = gU2. Proof. unfold gU. apply pow2_sqrt. pose proof U2_b. pose proof r2_pos. lra. Qed.
Lemma U_b : 858 / 1000 * r <= gU <= r.
Proof. pose proof U2_b as H. pose proof r2_pos as P. pose proof U_sq as S. pose proof r_pos as Q. assert (N : 0 <= gU) by apply sqrt_pos. split; (apply sq_le_inv; [lra|]); rewrite ?S; clear - H P; nra. Qed.
Lemma W_sq : gW ^ 2 = gU2 + gE2. Proof. unfold gW, hypot. rewrite pow2_sqrt, U_sq, E_sq; [reflexivity|]. rewrite U_sq, E_sq. pose proof U2_b. pose proof r2_pos. pose proof E2_b. lra. Qed.
Lemma W_nn : 0 <= gW. Proof. apply hypot_nonneg. Qed.
Lemma W_b : gU <= gW <= 1124 / 1000 * r.
Proof. pose proof W_sq as S. pose proof W_nn as N. pose proof U_b as U. pose proof U_sq as S2. pose proof E2_b as E. pose proof E2_r as F. pose proof U2_b as G. pose proof r_pos as Q. pose proof r2_pos as P. split; (apply sq_le_inv; [lra|]); rewrite ?S, ?S2; [lra|]. clear - F G P. nra. Qed.
Lemma N1_b : - (254 / 1000) * (a * r) <= b * gU - a * gW + gE2 <= 0.
Proof.
  pose proof W_sq as S. pose proof U_sq as S2. pose proof W_b as W. pose proof U_b as U. pose proof r_pos as Q. pose proof E2_r as F. pose proof E2_b as G. assert (A : 1 <= a) by lra. assert (B : 9 / 10 * a <= b <= a) by lra. set (G2 := gE2) in *. assert (DG : a ^ 2 = b ^ 2 + G2) by (unfold G2, gE2; ring). clearbody G2. set (U0 := gU) in *. set (W0 := gW) in *. clearbody U0 W0. rewrite <- S2 in S. set (rr := r) in *. clearbody rr. clear - S W U Q F G A B DG. split.
  - assert (D : (W0 - U0) * (W0 + U0) = G2) by (replace ((W0 - U0) * (W0 + U0)) with (W0 ^ 2 - U0 ^ 2) by ring; lra).
    assert (D2 : W0 - U0 <= 1534 / 10000 * rr) by nra. nra.
  - assert (Hk : (b * U0 + G2) ^ 2 <= (a * W0) ^ 2).
    { replace ((a * W0) ^ 2) with ((b ^ 2 + G2) * (U0 ^ 2 + G2)) by (rewrite <- DG, <- S; ring). assert (0 <= G2 * (U0 - b) ^ 2) by (apply Rmult_le_pos; [lra|apply pow2_ge_0]). lra. }
    apply sq_le_inv in Hk; [lra|]. nra.
Qed.

(** Binary64 values. *)
Let af := rnd a. Let bf := rnd b.
Let a2f := l_sq m af. Let b2f := l_sq m bf.
Let Ef := fl_sqrt (fl_sub a2f b2f).
Let Esq := l_sq m Ef.
Let rf := fl_sqrt (fl_add (fl_add (l_sq m x) (l_sq m y)) (l_sq m z)).
Let Af := fl_sub (l_sq m rf) Esq.
Let Gf := fl_mul (fl_mul 2 Ef) z.
Let Hf' := l_hypot m Af Gf.
Let Uf := fl_sqrt (fl_add (fl_mul (1 / 2) Af) (fl_mul (1 / 2) Hf')).
Let Wf := l_hypot m Uf Ef.
Let Pf := l_hypot m x y.

Lemma big_pos n : 0 < 10 ^ n. Proof. apply pow_lt. lra. Qed.
Lemma a_fair : fair a.
Proof. right. rewrite Rabs_pos_eq by lra. split; [apply Rle_trans with 1; [rewrite <- Rinv_1; apply Rinv_le_contravar; [lra|apply p_le]|lra]|]. apply Rle_trans with (10 ^ 30); [lra|apply big_le; lia]. Qed.
Lemma b_fair : fair b.
Proof. right. rewrite Rabs_pos_eq by lra. split; [apply Rle_trans with (/ 10 ^ 1); [apply inv_le; lia|lra]|]. apply Rle_trans with (10 ^ 30); [lra|apply big_le; lia]. Qed.
Lemma tny_small v : / 10 <= v -> tny <= v. Proof. intros H. apply (inv10 1); [lia|]. simpl. lra. Qed.
Lemma af_rl : rl 1 af a. Proof. apply rnd_rl, tny_small. rewrite Rabs_pos_eq; lra. Qed.
Lemma bf_rl : rl 1 bf b. Proof. apply rnd_rl, tny_small. rewrite Rabs_pos_eq; lra. Qed.
Lemma a2f_rl : rl (405 / 100) a2f (a ^ 2).
Proof. eapply rl_weaken; [apply (rl_lsq lk M 1); [exact af_rl|apply rnd_double|exact a_fair|lra]|lra]. Qed.
Lemma b2f_rl : rl (405 / 100) b2f (b ^ 2).
Proof. eapply rl_weaken; [apply (rl_lsq lk M 1); [exact bf_rl|apply rnd_double|exact b_fair|lra]|lra]. Qed.
Lemma a2_1 : 1 <= a ^ 2. Proof. assert (1 <= a) by lra. clear - H. nra. Qed.
Lemma b2_a2 : 0 < b ^ 2 <= a ^ 2. Proof. assert (1 <= a) by lra. assert (9 / 10 * a <= b <= a) by lra. clear - H H0. nra. Qed.
Lemma D_er : er (83 / 10) (a ^ 2) (fl_sub a2f b2f) gE2.
Proof.
  pose proof a2_1 as A1. pose proof b2_a2 as B1. pose proof E2_b as E.
  assert (X1 : er (405 / 100) (a ^ 2) a2f (a ^ 2)). { eapply er_weaken; [apply (rl_er (405/100) (a ^ 2) 1 _ _ a2f_rl); [rewrite Rabs_pos_eq; lra|lra|lra]|lra|lra]. }
  assert (X2 : er (405 / 100) (a ^ 2) b2f (b ^ 2)). { eapply er_weaken; [apply (rl_er (405/100) (a ^ 2) 1 _ _ b2f_rl); [rewrite Rabs_pos_eq; lra|lra|lra]|lra|lra]. }
  eapply er_weaken; [apply (er_sub _ _ (a ^ 2) (19 / 100) _ _ _ _ X1 X2)|lra|lra]; try lra.
  - fold gE2. rewrite Rabs_pos_eq; lra.
  - apply tny_small. lra.
Qed.
(** Ef squared, the rounded square of Ef, and whether Ef is 0. *)
Lemma E_er : er (87 / 10) (a ^ 2) (Ef ^ 2) gE2 /\ er (91 / 10) (a ^ 2) Esq gE2 /\ 0 <= Ef /\
  (Ef = 0 /\ gE2 = 0 \/ / 10 ^ 5 <= Ef <= 10 ^ 31).
Proof.
  pose proof D_er as (_ & D). pose proof E2_b as E. pose proof a2_1 as A1. pose proof uu_pos as U0. pose proof uu_small as U1.
  destruct Hf as [Hab|Hab].
  - assert (Z : Ef = 0) by (unfold Ef, a2f, b2f, af, bf; rewrite Hab, fl_sub_self; unfold fl_sqrt; rewrite sqrt_0; apply rnd0).
    assert (Z2 : gE2 = 0) by (unfold gE2; rewrite Hab; ring). assert (Z3 : Esq = 0). { unfold Esq. rewrite Z. destruct M as (_ & _ & _ & _ & _ & _ & _ & _ & Q & _). exact Q. }
    rewrite Z, Z2, Z3. replace (0 ^ 2) with 0 by ring. assert (forall e, 0 <= e <= 100000 -> er e (a ^ 2) 0 0) by (intros e He; eapply er_weaken; [apply er_exact; lra|lra|lra]).
    split; [apply H; lra|split; [apply H; lra|split; [lra|left; split; reflexivity]]].
  - set (Df := fl_sub a2f b2f) in *.
    assert (L : 1 / 10 ^ 9 * a ^ 2 <= gE2). { unfold gE2. replace (/ 10 ^ 9) with (1 / 1000000000) in Hab by (simpl; lra). replace (1 / 10 ^ 9) with (1 / 1000000000) by (simpl; lra). assert (9 / 10 * a <= b) by lra. assert (1 <= a) by lra. clear - Hab H H0. nra. }
    replace (1 / 10 ^ 9) with (1 / 1000000000) in L by (simpl; lra).
    assert (DL : 9 / 10000000000 * a ^ 2 <= Df <= 191 / 1000 * a ^ 2). { assert (83 / 10 * uu * a ^ 2 <= 1 / 100000000000000 * a ^ 2) by (apply Rmult_le_compat_r; lra). apply Rabs_le_inv in D. lra. }
    assert (D0 : 0 < Df) by lra. assert (A30 : a <= 10 ^ 30) by lra.
    assert (SB : 2 / 10 ^ 5 <= sqrt Df <= 10 ^ 30). { split; apply sq_le_inv; try (pose proof (big_pos 30); pose proof (sqrt_pos Df); lra).
      - rewrite pow2_sqrt by lra. apply Rle_trans with (2 := proj1 DL). replace ((2 / 10 ^ 5) ^ 2) with (4 / 10000000000) by (simpl; field). lra.
      - rewrite pow2_sqrt by lra. apply Rle_trans with (1 := proj2 DL). apply Rle_trans with (a ^ 2); [lra|]. apply pow_incr. lra. }
    assert (S1 : rl 1 Ef (sqrt Df)). { apply rnd_rl. rewrite Rabs_pos_eq by apply sqrt_pos. apply (inv10 5); [lia|]. clear - SB. pose proof (p10 5). simpl in *. lra. }
    assert (S2 : rl (202 / 100) (Ef ^ 2) Df). { assert (Q := rl_sqx _ _ _ S1 ltac:(lra)). rewrite pow2_sqrt in Q by lra. eapply rl_weaken; [exact Q|lra]. }
    assert (Er : / 10 ^ 5 <= Ef <= 10 ^ 31). { destruct S1 as (_ & S1). rewrite (Rabs_pos_eq (sqrt Df)) in S1 by apply sqrt_pos. assert (1 * uu * sqrt Df <= 1 / 10 * sqrt Df) by (apply Rmult_le_compat_r; [apply sqrt_pos|lra]). apply Rabs_le_inv in S1. change (10 ^ 31) with (10 * 10 ^ 30). pose proof (p10 5). split; [|set (t := 10 ^ 30) in *; clearbody t; lra]. simpl in *. lra. }
    assert (E1 : er (87 / 10) (a ^ 2) (Ef ^ 2) gE2).
    { split; [lra|]. replace (Ef ^ 2 - gE2) with ((Ef ^ 2 - Df) + (Df - gE2)) by ring. apply Rle_trans with (1 := Rabs_triang _ _). destruct S2 as (_ & S2). rewrite (Rabs_pos_eq Df) in S2 by lra.
      assert (202 / 100 * uu * Df <= 202 / 100 * uu * (191 / 1000 * a ^ 2)) by (apply Rmult_le_compat_l; [lra|apply DL]). assert (0 <= uu * a ^ 2) by (apply Rmult_le_pos; lra). lra. }
    split; [exact E1|split; [|split; [pose proof (p10 5); lra|right; exact Er]]].
    assert (Q : rl (205 / 100) Esq (Ef ^ 2)). { eapply rl_weaken; [apply (rl_lsq lk M 0); [apply rl_exact|apply rnd_double| |lra]|lra]. right. rewrite Rabs_pos_eq by (pose proof (p10 5); lra). split; [apply Rle_trans with (2 := proj1 Er); apply inv_le; lia|apply Rle_trans with (1 := proj2 Er); apply big_le; lia]. }
    split; [lra|]. replace (Esq - gE2) with ((Esq - Ef ^ 2) + (Ef ^ 2 - gE2)) by ring. apply Rle_trans with (1 := Rabs_triang _ _). destruct Q as (_ & Q). destruct E1 as (_ & E1). destruct S2 as (_ & S2).
    assert (EB : Rabs (Ef ^ 2) <= 195 / 1000 * a ^ 2). { rewrite Rabs_pos_eq by apply pow2_ge_0. rewrite (Rabs_pos_eq Df) in S2 by lra. assert (202 / 100 * uu * Df <= 1 / 1000 * Df) by (apply Rmult_le_compat_r; lra). apply Rabs_le_inv in S2. lra. }
    assert (205 / 100 * uu * Rabs (Ef ^ 2) <= 205 / 100 * uu * (195 / 1000 * a ^ 2)) by (apply Rmult_le_compat_l; [lra|exact EB]). assert (0 <= uu * a ^ 2) by (apply Rmult_le_pos; lra). lra.
Qed.

Lemma r4_pos : 0 < r ^ 2 * r ^ 2. Proof. pose proof r2_pos. apply Rmult_lt_0_compat; assumption. Qed.
Lemma r2_7 : 7 / 10 <= r ^ 2. Proof. pose proof r_pos as H. clear - H. nra. Qed.
Lemma sq_rl v : double v -> far v -> Rabs v <= r -> rl (205 / 100) (l_sq m v) (v ^ 2).
Proof.
  intros D F L. eapply rl_weaken; [apply (rl_lsq lk M 0); [apply rl_exact|exact D| |lra]|lra]. destruct F as [->|F]; [left; reflexivity|right]. split; [apply Rle_trans with (2 := F); apply inv_le; lia|]. apply Rle_trans with (10 ^ 40); [lra|apply big_le; lia].
Qed.
Lemma far_sq v : far v -> v ^ 2 = 0 \/ / 10 ^ 160 <= v ^ 2.
Proof.
  intros [->|F]; [left; ring|right]. rewrite <- (pow2_abs v). replace (/ 10 ^ 160) with ((/ 10 ^ 80) ^ 2) by (rewrite <- Rinv_pow by (pose proof (big_pos 80); lra); rewrite pow_mult || rewrite <- pow_mult; reflexivity). apply pow_incr. split; [left; apply p10|exact F].
Qed.
Lemma add_far p q n : (p = 0 \/ / 10 ^ n <= p) -> (q = 0 \/ / 10 ^ n <= q) -> p + q = 0 \/ / 10 ^ n <= p + q.
Proof. intros [->|P] [->|Q]; pose proof (p10 n); [left; ring|right; lra|right; lra|right; lra]. Qed.
Lemma far_tny v n : (n <= 250)%nat -> v = 0 \/ / 10 ^ n <= v -> v = 0 \/ tny <= v.
Proof. intros N [H|H]; [left; exact H|right; now apply (inv10 n)]. Qed.
Lemma rf_rl : rl (306 / 100) rf r.
Proof.
  pose proof (pow2_ge_0 x) as X. pose proof (pow2_ge_0 y) as Y. pose proof (pow2_ge_0 z) as Z.
  pose proof (sq_rl x Dx Fx x_le) as R1. pose proof (sq_rl y Dy Fy y_le) as R2. pose proof (sq_rl z Dz Fz z_le) as R3.
  pose proof (far_sq x Fx) as F1. pose proof (far_sq y Fy) as F2. pose proof (far_sq z Fz) as F3.
  assert (A1 := rl_add (205 / 100) _ _ _ _ _ _ R1 R2 X Y ltac:(lra) ltac:(lra) (far_tny _ 160 ltac:(lia) (add_far _ _ _ F1 F2)) ltac:(lra)).
  assert (A2 := rl_add (306 / 100) _ _ _ _ _ _ A1 R3 ltac:(lra) Z ltac:(lra) ltac:(lra) (far_tny _ 160 ltac:(lia) (add_far _ _ _ (add_far _ _ _ F1 F2) F3)) ltac:(lra)).
  assert (V : 0 < x ^ 2 + y ^ 2 + z ^ 2) by (rewrite <- r2_eq; apply r2_pos).
  destruct (rl_sqrt _ _ _ A2 V ltac:(apply tny_small; fold r; pose proof r_pos; lra) ltac:(lra)) as [Q _]. eapply rl_weaken; [exact Q|lra].
Qed.
Lemma r_fair : fair r.
Proof. right. pose proof r_pos. rewrite Rabs_pos_eq by lra. split; [apply Rle_trans with (/ 10 ^ 1); [apply inv_le; lia|simpl; lra]|apply Rle_trans with (10 ^ 40); [lra|apply big_le; lia]]. Qed.
Lemma r2f_er : er (818 / 100) (r ^ 2) (l_sq m rf) (r ^ 2).
Proof.
  pose proof r2_pos as P. assert (Q := rl_lsq lk M _ _ _ rf_rl (rnd_double _) r_fair ltac:(lra)). fold m in Q. eapply er_weaken; [apply (rl_er _ (r ^ 2) 1 _ _ Q); [rewrite Rabs_pos_eq; lra|lra|lra]|lra|lra].
Qed.
Lemma E_er_r : er (1206 / 100) (r ^ 2) (Ef ^ 2) gE2 /\ er (1261 / 100) (r ^ 2) Esq gE2.
Proof.
  pose proof E_er as (E1 & E2 & _). pose proof a2_r as A. pose proof r2_pos as P. split.
  - eapply er_weaken; [apply (er_scale _ _ (r ^ 2) (1385 / 1000) _ _ E1 A); lra|lra|lra].
  - eapply er_weaken; [apply (er_scale _ _ (r ^ 2) (1385 / 1000) _ _ E2 A); lra|lra|lra].
Qed.
Lemma A_er : er (2180 / 100) (r ^ 2) Af gA.
Proof.
  pose proof r2f_er as E1. pose proof E_er_r as (_ & E2). pose proof A_b as A. pose proof r2_7 as P. unfold gA in *. rewrite E_sq in *. eapply er_weaken; [apply (er_sub _ _ (r ^ 2) 1 _ _ _ _ E1 E2)|lra|lra]; try lra.
  - rewrite Rabs_pos_eq; lra.
  - apply tny_small. lra.
Qed.
Lemma A2_er : er (437 / 10) (r ^ 2 * r ^ 2) (Af ^ 2) (gA ^ 2).
Proof.
  pose proof A_er as E. pose proof A_b as A. pose proof r2_7 as P. assert (AA : Rabs gA <= 1 * r ^ 2) by (rewrite Rabs_pos_eq; lra). assert (Q := er_times _ _ _ _ 1 1 _ _ _ _ E E AA AA ltac:(lra) ltac:(lra) ltac:(lra) ltac:(lra) ltac:(lra)).
  replace (Af * Af) with (Af ^ 2) in Q by ring. replace (gA * gA) with (gA ^ 2) in Q by ring. eapply er_weaken; [exact Q|pose proof r4_pos; lra|lra].
Qed.
Lemma Ef_far : Ef = 0 \/ / 10 ^ 5 <= Rabs Ef. Proof. pose proof E_er as (_ & _ & N & [[Z _]|Q]); [left; exact Z|right; rewrite Rabs_pos_eq; lra]. Qed.
Lemma mul_far p q i j : (p = 0 \/ / 10 ^ i <= Rabs p) -> (q = 0 \/ / 10 ^ j <= Rabs q) -> p * q = 0 \/ / 10 ^ (i + j) <= Rabs (p * q).
Proof. intros [->|P]; [left; ring|]. intros [->|Q]; [left; ring|right]. rewrite Rabs_mult, pow_add, Rinv_mult. pose proof (p10 i). pose proof (p10 j). apply Rmult_le_compat; lra. Qed.
Lemma G_rl : rl (204 / 100) Gf (2 * Ef * z).
Proof.
  assert (F2 : 2 * Ef = 0 \/ / 10 ^ 5 <= Rabs (2 * Ef)) by (destruct Ef_far as [->|H]; [left; ring|right; rewrite Rabs_mult, (Rabs_pos_eq 2) by lra; pose proof (p10 5); lra]).
  assert (A : rl (101 / 100) (fl_mul 2 Ef) (2 * Ef)).
  { eapply rl_weaken; [apply (rl_mul0 0 0 2 2 Ef Ef (rl_exact _) (rl_exact _)); [|lra]|lra]. destruct F2 as [H|H]; [left; exact H|right; apply (inv10 5); [lia|exact H]]. }
  eapply rl_weaken; [apply (rl_mul0 _ 0 _ _ z z A (rl_exact _)); [|lra]|lra]. destruct (mul_far _ _ 5 80 F2 Fz) as [H|H]; [left; exact H|right; apply (inv10 85); [lia|exact H]].
Qed.
Lemma er_trans e1 e2 S p q w : er e1 S p q -> er e2 S q w -> e1 + e2 <= 100000 -> er (e1 + e2) S p w.
Proof. intros (K1 & E1) (K2 & E2) H. split; [lra|]. replace (p - w) with ((p - q) + (q - w)) by ring. apply Rle_trans with (1 := Rabs_triang _ _). lra. Qed.
Lemma Ef2_b : 0 <= Ef ^ 2 <= 2633 / 10000 * r ^ 2.
Proof. split; [apply pow2_ge_0|]. pose proof E_er_r as ((_ & E) & _). pose proof E2_r as F. pose proof r2_pos as P. pose proof uu_small as U1. pose proof uu_pos. assert (1206 / 100 * uu * r ^ 2 <= 1 / 100000 * r ^ 2) by (apply Rmult_le_compat_r; lra). apply Rabs_le_inv in E. lra. Qed.
Lemma G2_er : er (526 / 10) (r ^ 2 * r ^ 2) (Gf ^ 2) ((2 * gE * z) ^ 2).
Proof.
  pose proof r4_pos as P4. pose proof r2_pos as P2. pose proof z2_r as Z. pose proof E_er_r as (E1 & _). pose proof Ef2_b as EB.
  assert (Q := rl_sqx _ _ _ G_rl ltac:(lra)). replace ((2 * Ef * z) ^ 2) with (4 * Ef ^ 2 * z ^ 2) in Q by ring.
  assert (Q2 : er (431 / 100) (r ^ 2 * r ^ 2) (Gf ^ 2) (4 * Ef ^ 2 * z ^ 2)).
  { eapply er_weaken; [apply (rl_er _ (r ^ 2 * r ^ 2) (4 * (2633 / 10000)) _ _ Q); [|lra|lra]|lra|lra]. rewrite Rabs_pos_eq by (apply Rmult_le_pos; lra). rewrite <- (Rmult_assoc (4 * (2633 / 10000))). apply Rmult_le_compat; lra. }
  assert (Q3 : er (4825 / 100) (r ^ 2 * r ^ 2) (4 * Ef ^ 2 * z ^ 2) ((2 * gE * z) ^ 2)).
  { replace ((2 * gE * z) ^ 2) with (4 * gE2 * z ^ 2) by (rewrite <- E_sq; ring). destruct E1 as (_ & E1). split; [lra|]. replace (4 * Ef ^ 2 * z ^ 2 - 4 * gE2 * z ^ 2) with (4 * (z ^ 2 * (Ef ^ 2 - gE2))) by ring. rewrite Rabs_mult, (Rabs_pos_eq 4) by lra. rewrite Rabs_mult, (Rabs_pos_eq (z ^ 2)) by lra.
    assert (z ^ 2 * Rabs (Ef ^ 2 - gE2) <= r ^ 2 * (1206 / 100 * uu * r ^ 2)) by (apply Rmult_le_compat; try lra; apply Rabs_pos). assert (0 <= uu * (r ^ 2 * r ^ 2)) by (pose proof uu_pos; apply Rmult_le_pos; lra). lra. }
  eapply er_weaken; [apply (er_trans _ _ _ _ _ _ Q2 Q3); lra|lra|lra].
Qed.
Lemma H_lo : 5428 / 10000 * (r ^ 2 * r ^ 2) <= gA ^ 2 + (2 * gE * z) ^ 2.
Proof. pose proof A_b as A. pose proof r2_pos as P. pose proof (pow2_ge_0 (2 * gE * z)). set (q := r ^ 2) in *. clearbody q. assert (5428 / 10000 * (q * q) <= gA ^ 2) by (clear - A P; nra). lra. Qed.
Lemma r2_hi : r ^ 2 <= 10 ^ 80. Proof. replace (10 ^ 80) with ((10 ^ 40) ^ 2) by (rewrite <- pow_mult; reflexivity). apply pow_incr. pose proof r_pos. lra. Qed.
Lemma H_er : er (1180 / 10) (r ^ 2) Hf' gH.
Proof.
  pose proof r4_pos as P4. pose proof H_lo as L. pose proof A2_er as E1. pose proof G2_er as E2. pose proof H_b as HB. pose proof A_b as A. pose proof E2_r as F. pose proof r2_7 as P. pose proof r2_hi as RH.
  assert (E3 := er_plus _ _ _ _ _ _ _ E1 E2 ltac:(lra)). assert (R3 := er_rl _ _ (5428 / 10000) _ _ E3 ltac:(lra) ltac:(rewrite Rabs_pos_eq; lra) ltac:(lra)).
  assert (R4 : rl (177.5) (Af ^ 2 + Gf ^ 2) (gA ^ 2 + (2 * gE * z) ^ 2)) by (eapply rl_weaken; [exact R3|lra]).
  assert (R5 : rl (93) Hf' gH).
  { eapply rl_weaken; [apply (rl_lhyp lk M _ _ _ _ _ R4)|lra]; try apply rnd_double; [|lra]. fold gH. split; [apply Rle_trans with (/ 10 ^ 1); [apply inv_le; lia|simpl; lra]|]. apply Rle_trans with (10 ^ 81); [|apply big_le; lia]. change (10 ^ 81) with (10 * 10 ^ 80). set (t := 10 ^ 80) in *. clearbody t. lra. }
  eapply er_weaken; [apply (rl_er _ (r ^ 2) (12632 / 10000) _ _ R5); [|lra|lra]|lra|lra]. rewrite Rabs_pos_eq; lra.
Qed.
Lemma half_er e S v w c : er e S v w -> Rabs w <= c * S -> tny <= c / 2 * S -> 0 < S -> e / 2 + c / 2 + / 100 <= 100000 -> er (e / 2 + c / 2 + / 100) S (fl_mul (1 / 2) v) (0.5 * w).
Proof.
  intros (K & E) H T HS He. replace (0.5 * w) with (1 / 2 * w) by lra. apply er_rnd; try assumption.
  - split; [lra|]. rewrite <- Rmult_minus_distr_l, Rabs_mult, Rabs_pos_eq by lra. lra.
  - rewrite Rabs_mult, (Rabs_pos_eq (1 / 2)) by lra. lra.
Qed.
Lemma U_rl : rl (500 / 10) Uf gU /\ 0 < Uf.
Proof.
  pose proof A_er as E1. pose proof H_er as E2. pose proof A_b as A. pose proof H_b as HB. pose proof E2_r as F. pose proof r2_7 as P. pose proof U2_b as UB.
  assert (T : tny <= 1 / 2 * r ^ 2) by (apply tny_small; lra). assert (T2 : tny <= 1264 / 1000 / 2 * r ^ 2) by (apply tny_small; lra).
  assert (X1 := half_er _ _ _ _ 1 E1 ltac:(rewrite Rabs_pos_eq; lra) T ltac:(lra) ltac:(lra)). assert (X2 := half_er _ _ _ _ (1264 / 1000) E2 ltac:(rewrite Rabs_pos_eq; lra) T2 ltac:(lra) ltac:(lra)).
  assert (X3 := er_add _ _ (r ^ 2) 1 _ _ _ _ X1 X2). fold gU2 in X3. specialize (X3 ltac:(rewrite Rabs_pos_eq; lra) ltac:(apply tny_small; lra) ltac:(lra) ltac:(lra) ltac:(lra)).
  assert (X4 := er_rl _ _ (7368 / 10000) _ _ X3 ltac:(lra) ltac:(rewrite Rabs_pos_eq; lra) ltac:(lra)).
  assert (UU : 858 / 1000 * r <= gU) by apply U_b. assert (X5 := rl_sqrt _ _ _ X4 ltac:(lra) ltac:(fold gU; apply tny_small; pose proof r_pos; lra) ltac:(lra)). fold gU in X5. destruct X5 as [X5 X6].
  assert (X7 : rl (500 / 10) Uf gU) by (eapply rl_weaken; [exact X5|lra]). split; [exact X7|]. destruct X7 as (_ & X7). pose proof r_pos. rewrite (Rabs_pos_eq gU) in X7 by lra. pose proof uu_small. assert (500 / 10 * uu * gU <= 1 / 10 * gU) by (apply Rmult_le_compat_r; lra). apply Rabs_le_inv in X7. lra.
Qed.
Lemma W_rl : rl (623 / 10) Wf gW.
Proof.
  pose proof U_rl as (X & _). pose proof U2_b as UB. pose proof E2_b as EB. pose proof E_er_r as ((_ & E1) & _). pose proof r2_7 as P. pose proof W_b as WB. pose proof U_b as U'. pose proof r_pos as RP. pose proof uu_pos.
  assert (Q := rl_sqx _ _ _ X ltac:(lra)). rewrite U_sq in Q. destruct Q as (_ & Q). rewrite (Rabs_pos_eq gU2) in Q by lra.
  assert (RR : rl (1165 / 10) (Uf ^ 2 + Ef ^ 2) (gU ^ 2 + gE ^ 2)).
  { rewrite U_sq, E_sq. split; [lra|]. rewrite (Rabs_pos_eq (gU2 + gE2)) by lra. replace (Uf ^ 2 + Ef ^ 2 - (gU2 + gE2)) with ((Uf ^ 2 - gU2) + (Ef ^ 2 - gE2)) by ring. apply Rle_trans with (1 := Rabs_triang _ _).
    assert (uu * r ^ 2 <= uu * (13573 / 10000 * gU2)) by (apply Rmult_le_compat_l; lra). assert (0 <= uu * gU2) by (apply Rmult_le_pos; lra). assert (0 <= uu * gE2) by (apply Rmult_le_pos; lra). lra. }
  eapply rl_weaken; [apply (rl_lhyp lk M _ _ _ _ _ RR)|lra]; try apply rnd_double; [|lra]. fold gW. split; [apply Rle_trans with (/ 10 ^ 1); [apply inv_le; lia|simpl; lra]|]. apply Rle_trans with (10 ^ 41); [|apply big_le; lia]. assert (r <= 10 ^ 40) by lra. change (10 ^ 41) with (10 * 10 ^ 40). set (t := 10 ^ 40) in *. clearbody t. lra.
Qed.
Lemma P_lo : / 10 ^ 80 <= hypot x y. Proof. exact Hp. Qed.
Lemma P_rl : rl (405 / 100) Pf (hypot x y).
Proof.
  eapply rl_weaken; [apply (rl_lhyp lk M 0); [apply rl_exact|exact Dx|exact Dy| |lra]|lra]. split; [apply Rle_trans with (2 := P_lo); apply inv_le; lia|]. apply Rle_trans with (10 ^ 40); [|apply big_le; lia]. apply Rle_trans with (1 := p_le_r). lra.
Qed.

Definition gq : R := gW / gU * z / hypot x y.
Definition gB0 : R := atan gq.
Definition gN : R := b * gU - a * gW + gE2.
Definition gcor (t : R) : R := gN * sin t / (a * gW * 1 / cos t - gE2 * cos t).
Definition gB1 : R := gB0 + gcor gB0.
Let qf := fl_div (fl_mul (fl_div Wf Uf) z) Pf.
Let t := l_atan lk qf.
Let cf := l_cos m t. Let sf := l_sin m t.

Lemma WU_b : 1 <= gW / gU <= 132 / 100.
Proof. pose proof U_b. pose proof W_b. pose proof r_pos. assert (0 < gU) by lra. split; apply Rmult_le_reg_r with gU; try assumption; unfold Rdiv; rewrite Rmult_assoc, Rinv_l by lra; lra. Qed.
Lemma Uf_tny v : 1 <= v -> tny <= Rabs v. Proof. intros. apply tny_small. rewrite Rabs_pos_eq; lra. Qed.
Lemma q_rl : rl (1195 / 10) qf gq.
Proof.
  pose proof WU_b as WU. pose proof U_b. pose proof r_pos. pose proof P_lo as PL. pose proof (p10 80). pose proof p_le_r as PR.
  assert (R1 := rl_div _ _ _ _ _ _ W_rl (proj1 U_rl) ltac:(lra) (Uf_tny _ (proj1 WU)) ltac:(lra)).
  assert (F : gW / gU * z = 0 \/ / 10 ^ 80 <= Rabs (gW / gU * z)). { destruct Fz as [F|F]; [left; apply Rmult_eq_0_compat_l; exact F|right]. rewrite Rabs_mult, (Rabs_pos_eq (gW / gU)) by lra. pose proof (Rabs_pos z). set (s := / 10 ^ 80) in *. clearbody s. set (w := gW / gU) in *. clearbody w. clear - F WU H2. nra. }
  assert (R2 := rl_mul0 _ 0 _ _ z z R1 (rl_exact _) ltac:(destruct F as [F|F]; [left; exact F|right; apply (inv10 80); [lia|exact F]]) ltac:(lra)).
  assert (F2 : gq = 0 \/ / 10 ^ 120 <= Rabs gq).
  { unfold gq. destruct F as [F|F]; [left; rewrite F; unfold Rdiv; ring|right]. unfold Rdiv at 1. rewrite Rabs_mult, Rabs_inv, (Rabs_pos_eq (hypot x y)) by apply hypot_nonneg. change 120%nat with (80 + 40)%nat. rewrite pow_add, Rinv_mult. apply Rmult_le_compat; try (left; apply p10); [exact F|]. apply Rinv_le_contravar; [lra|]. apply Rle_trans with (1 := PR). lra. }
  eapply rl_weaken; [apply (rl_div0 _ _ _ _ _ _ R2 P_rl); [apply Rgt_not_eq; apply Rlt_le_trans with (2 := PL); apply p10| |lra]|lra]. destruct F2 as [F2|F2]; [left; exact F2|right; apply (inv10 120); [lia|exact F2]].
Qed.
Lemma q_b : Rabs gq <= 10 ^ 121.
Proof.
  pose proof WU_b as WU. pose proof z_le as Z. pose proof r_pos. pose proof P_lo as PL. pose proof (p10 80). assert (RR : r <= 10 ^ 40) by lra. unfold gq. unfold Rdiv at 1. rewrite !Rabs_mult, Rabs_inv, (Rabs_pos_eq (hypot x y)) by apply hypot_nonneg. rewrite (Rabs_pos_eq (gW / gU)) by lra.
  apply Rle_trans with (132 / 100 * 10 ^ 40 * 10 ^ 80); [|change 121%nat with (1 + (40 + 80))%nat; rewrite !pow_add, <- Rmult_assoc; apply Rmult_le_compat_r; [left; apply pow_lt; lra|]; apply Rmult_le_compat_r; [left; apply pow_lt; lra|lra]].
  assert (HI : / hypot x y <= 10 ^ 80). { rewrite <- (Rinv_inv (10 ^ 80)). apply Rinv_le_contravar; assumption. } assert (0 < / hypot x y) by (apply Rinv_0_lt_compat; lra). pose proof (Rabs_pos z). apply Rmult_le_compat; try lra; [apply Rmult_le_pos; lra|]. apply Rmult_le_compat; lra.
Qed.
Lemma qf_b : Rabs qf <= 10 ^ 200.
Proof.
  apply Rle_trans with (10 ^ 122); [|apply big_le; lia]. pose proof q_rl as (_ & Q). pose proof q_b as B. pose proof uu_small. pose proof uu_pos. assert (1195 / 10 * uu * Rabs gq <= 1 / 10 * Rabs gq) by (apply Rmult_le_compat_r; [apply Rabs_pos|lra]). replace qf with ((qf - gq) + gq) by ring. apply Rle_trans with (1 := Rabs_triang _ _). pose proof (Rabs_pos gq). change (10 ^ 122) with (10 * 10 ^ 121). set (s := 10 ^ 121) in *. clearbody s. lra.
Qed.
Lemma t_double : double t. Proof. destruct M as (_ & _ & _ & _ & _ & _ & _ & _ & _ & _ & Q & _). apply Q. Qed.
Lemma t_lt : Rabs t < PI / 2. Proof. destruct M as (_ & _ & _ & _ & _ & Q & _). apply Q. apply rnd_double. Qed.
Lemma t_7 : Rabs t <= 7. Proof. pose proof t_lt. pose proof L_vin3.pi_315. lra. Qed.
Lemma t_err : Rabs (t - gB0) <= 64 * uu.
Proof.
  pose proof (atan_rl _ _ _ q_rl ltac:(lra)) as A. destruct M as (_ & _ & _ & _ & Q & _). specialize (Q qf (rnd_double _) qf_b). fold t in Q. unfold gB0. replace (t - atan gq) with ((t - atan qf) + (atan qf - atan gq)) by ring. apply Rle_trans with (1 := Rabs_triang _ _). pose proof uu_pos. lra.
Qed.
Lemma c0_lo : 0 < cos gB0. Proof. unfold gB0. pose proof (atan_bound gq). apply cos_gt_0; lra. Qed.
Lemma c_lo : 4 / 10 ^ 17 <= cos t. Proof. apply cos_double; [exact t_double|exact t_lt]. Qed.
Lemma cf_rl : rl (401 / 100) cf (cos t).
Proof.
  split; [lra|]. destruct M as (_ & _ & Q & _). specialize (Q t t_double t_7). fold m cf in Q. pose proof c_lo as C. pose proof e330 as S. pose proof uu_pos. rewrite (Rabs_pos_eq (cos t)) in * by lra. set (s := / 10 ^ 300) in *. clearbody s. assert (uu * (4 / 10 ^ 17) <= uu * cos t) by (apply Rmult_le_compat_l; lra). lra.
Qed.
Lemma sf_er : er (401 / 100) (Rabs (sin t) + / 1000) sf (sin t).
Proof.
  split; [lra|]. destruct M as (_ & Q & _). specialize (Q t t_double t_7). fold m sf in Q. pose proof e330 as S. pose proof uu_pos. pose proof (Rabs_pos (sin t)). set (s := / 10 ^ 300) in *. clearbody s. assert (0 <= uu * Rabs (sin t)) by (apply Rmult_le_pos; lra). lra.
Qed.
Lemma ar_pos : 85 / 100 <= a * r. Proof. pose proof r_pos. assert (1 <= a) by lra. clear - H H0. nra. Qed.
Lemma N_er : er (1372 / 10) (a * r) (fl_add (fl_sub (fl_mul bf Uf) (fl_mul af Wf)) Esq) gN.
Proof.
  pose proof ar_pos as AR. pose proof U_b as UB. pose proof W_b as WB. pose proof r_pos as RP. pose proof N1_b as NB. fold gN in NB. assert (A1 : 1 <= a) by lra.
  assert (B1 : 77 / 100 * (a * r) <= b * gU <= 1 * (a * r)). { assert (9 / 10 * a <= b <= a) by lra. clear - UB RP A1 H. nra. }
  assert (B2 : 858 / 1000 * (a * r) <= a * gW <= 1124 / 1000 * (a * r)). { clear - UB WB RP A1. nra. }
  assert (X1 := rl_mul _ _ _ _ _ _ bf_rl (proj1 U_rl) ltac:(apply tny_small; rewrite Rabs_pos_eq; lra) ltac:(lra)).
  assert (X2 := rl_mul _ _ _ _ _ _ af_rl W_rl ltac:(apply tny_small; rewrite Rabs_pos_eq; lra) ltac:(lra)).
  assert (Y1 := rl_er _ (a * r) 1 _ _ X1 ltac:(rewrite Rabs_pos_eq; lra) ltac:(lra) ltac:(lra)).
  assert (Y2 := rl_er _ (a * r) (1124 / 1000) _ _ X2 ltac:(rewrite Rabs_pos_eq; lra) ltac:(lra) ltac:(lra)).
  assert (E2 : gE2 <= 224 / 1000 * (a * r)). { pose proof E2_b as E. assert (85 / 100 * a <= r) by lra. clear - E H A1. nra. } pose proof E2_b as (E0 & _).
  assert (Z1 := er_sub _ _ (a * r) (1124 / 1000) _ _ _ _ Y1 Y2). specialize (Z1 ltac:(unfold gN in NB; apply Rabs_le; lra) ltac:(apply tny_small; lra) ltac:(lra) ltac:(lra) ltac:(lra)).
  assert (Z2 : er (1072 / 100) (a * r) Esq gE2). { pose proof E_er as (_ & E & _). eapply er_weaken; [apply (er_scale _ _ (a * r) (1177 / 1000) _ _ E); try lra|lra|lra]. assert (85 / 100 * a <= r) by lra. clear - H A1. nra. }
  eapply er_weaken; [apply (er_add _ _ (a * r) (254 / 1000) _ _ _ _ Z1 Z2)|lra|lra]; try lra.
  - fold gN. apply Rabs_le. lra.
  - apply tny_small. lra.
Qed.
Let sg := Rabs (sin t) + / 1000.
Lemma num_er : er (1387 / 10) (a * r * sg) (fl_mul (fl_add (fl_sub (fl_mul bf Uf) (fl_mul af Wf)) Esq) sf) (gN * sin t).
Proof.
  pose proof ar_pos as AR. pose proof N1_b as NB. fold gN in NB. assert (SG : / 1000 <= sg) by (unfold sg; pose proof (Rabs_pos (sin t)); lra).
  assert (S2 : er (401 / 100) sg sf (sin t)) by exact sf_er.
  assert (NN : Rabs gN <= 254 / 1000 * (a * r)) by (apply Rabs_le; lra). assert (SS : Rabs (sin t) <= 1 * sg) by (unfold sg; lra).
  assert (T := er_times _ _ _ _ (254 / 1000) 1 _ _ _ _ N_er S2 NN SS ltac:(lra) ltac:(lra) ltac:(lra) ltac:(lra) ltac:(lra)).
  assert (PP : 85 / 100000 <= a * r * sg) by (clear - AR SG; nra).
  eapply er_weaken; [apply (er_rnd _ _ (254 / 1000) _ _ T)|lra|lra]; try lra.
  - rewrite Rabs_mult. replace (254 / 1000 * (a * r * sg)) with ((254 / 1000 * (a * r)) * (1 * sg)) by ring. apply Rmult_le_compat; try apply Rabs_pos; assumption.
  - apply (inv10 4); [lia|]. simpl. lra.
Qed.
Definition gDen (c : R) : R := a * gW * 1 / c - gE2 * c.
Lemma aW_b : 858 / 1000 * (a * r) <= a * gW <= 1124 / 1000 * (a * r) /\ 7293 / 10000 * a ^ 2 <= a * gW.
Proof. pose proof U_b as UB. pose proof W_b as WB. pose proof r_pos as RP. assert (A1 : 1 <= a) by lra. assert (A2 : 85 / 100 * a <= r) by lra. clear - UB WB RP A1 A2. split; [split|]; nra. Qed.
Lemma Den_lo c : 0 < c <= 1 -> 7394 / 10000 * (a * gW / c) <= gDen c <= a * gW / c.
Proof.
  intros C. pose proof aW_b as (_ & WB). pose proof E2_b as E. pose proof a2_1 as A1. unfold gDen. rewrite Rmult_1_r.
  assert (0 <= gE2 * c) by (apply Rmult_le_pos; lra). split; [|lra]. assert (X : gE2 * c <= 2606 / 10000 * (a * gW / c)); [|lra].
  replace (2606 / 10000 * (a * gW / c)) with ((2606 / 10000 * (a * gW)) / c) by (field; lra). apply Rmult_le_reg_r with c; [lra|]. unfold Rdiv. rewrite (Rmult_assoc _ (/ c)), Rinv_l, Rmult_1_r by lra. assert (c * c <= 1) by (clear - C; nra). assert (gE2 * (c * c) <= gE2 * 1) by (apply Rmult_le_compat_l; lra). lra.
Qed.
Lemma ct_b : 0 < cos t <= 1. Proof. pose proof c_lo. pose proof (COS_bound t). lra. Qed.
Let Denf := fl_sub (fl_div (fl_mul (fl_mul af Wf) 1) cf) (fl_mul Esq cf).
Lemma Den_rl : rl (117) Denf (gDen (cos t)).
Proof.
  pose proof ar_pos as AR. pose proof aW_b as (WB & WB2). pose proof ct_b as C. pose proof c_lo as CL. pose proof (Den_lo _ C) as DL. pose proof a2_1 as A1. pose proof E2_b as E. unfold gDen in *.
  assert (X2 := rl_mul _ _ _ _ _ _ af_rl W_rl ltac:(apply tny_small; rewrite Rabs_pos_eq; lra) ltac:(lra)).
  assert (X3 := rl_mul _ 0 _ _ 1 1 X2 (rl_exact _) ltac:(apply tny_small; rewrite Rabs_pos_eq; lra) ltac:(lra)).
  assert (Q : a * gW <= a * gW * 1 / cos t). { apply Rmult_le_reg_r with (cos t); [lra|]. unfold Rdiv. rewrite (Rmult_assoc _ (/ cos t)), Rinv_l, !Rmult_1_r by lra. set (w := a * gW) in *. clearbody w. clear - C WB AR. nra. }
  assert (X4 := rl_div _ _ _ _ _ _ X3 cf_rl ltac:(lra) ltac:(apply tny_small; rewrite Rabs_pos_eq; lra) ltac:(lra)).
  set (S := a * gW / cos t) in *. assert (SE : a * gW * 1 / cos t = S) by (unfold S; rewrite Rmult_1_r; reflexivity). rewrite SE in *.
  assert (Y1 := rl_er _ S 1 _ _ X4 ltac:(rewrite Rabs_pos_eq; lra) ltac:(lra) ltac:(lra)).
  assert (C4 : er (401 / 100) (cos t) cf (cos t)) by (eapply er_weaken; [apply (rl_er _ (cos t) 1 _ _ cf_rl); [rewrite Rabs_pos_eq; lra|lra|lra]|lra|lra]).
  pose proof E_er as (_ & EE & _).
  assert (T := er_times _ _ _ _ (19 / 100) 1 _ _ _ _ EE C4 ltac:(rewrite Rabs_pos_eq; lra) ltac:(rewrite Rabs_pos_eq; lra) ltac:(lra) ltac:(lra) ltac:(lra) ltac:(lra) ltac:(lra)).
  assert (AC : 4 / 10 ^ 17 <= a ^ 2 * cos t) by (clear - A1 CL; set (q := a ^ 2) in *; clearbody q; nra).
  assert (T2 := er_rnd _ _ (19 / 100) _ _ T). specialize (T2 ltac:(rewrite Rabs_mult, (Rabs_pos_eq gE2), (Rabs_pos_eq (cos t)), <- Rmult_assoc by lra; apply Rmult_le_compat_r; lra) ltac:(apply (inv10 18); [lia|lra]) ltac:(lra) ltac:(lra)).
  assert (SC : a ^ 2 * cos t <= 1372 / 1000 * S).
  { unfold S. apply Rmult_le_reg_r with (cos t); [lra|]. replace (1372 / 1000 * (a * gW / cos t) * cos t) with (1372 / 1000 * (a * gW)) by (field; lra). assert (cos t * cos t <= 1) by (clear - C; nra). assert (a ^ 2 * (cos t * cos t) <= a ^ 2 * 1) by (apply Rmult_le_compat_l; lra). lra. }
  assert (T3 := er_scale _ _ S (1372 / 1000) _ _ T2 SC ltac:(lra) ltac:(lra)).
  assert (Z := er_sub _ _ S 1 _ _ _ _ Y1 T3). specialize (Z ltac:(rewrite Rabs_pos_eq; lra) ltac:(apply tny_small; lra) ltac:(lra) ltac:(lra) ltac:(lra)).
  eapply rl_weaken; [apply (er_rl _ _ (7394 / 10000) _ _ Z); [lra|rewrite Rabs_pos_eq; lra|lra]|lra].
Qed.
Let gf := fl_div (fl_mul (fl_add (fl_sub (fl_mul bf Uf) (fl_mul af Wf)) Esq) sf) Denf.
Lemma gcor_form u : 0 < cos u -> gcor u = gN * (sin u * cos u) / (a * gW - gE2 * cos u ^ 2).
Proof.
  intros C. unfold gcor. pose proof aW_b as (_ & WB). pose proof E2_b as E. pose proof a2_1 as A1. assert (cos u ^ 2 <= 1) by (pose proof (COS_bound u); clear - C H; nra). pose proof (pow2_ge_0 (cos u)). assert (gE2 * cos u ^ 2 <= gE2 * 1) by (apply Rmult_le_compat_l; lra).
  field. split; [|lra]. replace (a * gW * 1 - gE2 * cos u * cos u) with (a * gW - gE2 * cos u ^ 2) by ring. lra.
Qed.
Lemma sc_half u : Rabs (sin u * cos u) <= 1 / 2.
Proof. pose proof (sin2_cos2 u) as H. unfold Rsqr in H. pose proof (pow2_ge_0 (sin u - cos u)). pose proof (pow2_ge_0 (sin u + cos u)). apply Rabs_le. nra. Qed.
Lemma D_b u : 5392 / 10000 * a ^ 2 <= a * gW - gE2 * cos u ^ 2 /\ 7394 / 10000 * (858 / 1000 * (a * r)) <= a * gW - gE2 * cos u ^ 2.
Proof.
  pose proof aW_b as (WB' & WB). pose proof E2_b as E. pose proof a2_1 as A1. assert (cos u ^ 2 <= 1) by (pose proof (COS_bound u); clear - H; nra). pose proof (pow2_ge_0 (cos u)). assert (gE2 * cos u ^ 2 <= gE2 * 1) by (apply Rmult_le_compat_l; lra). lra.
Qed.
Lemma gN_D u : Rabs gN <= 4005 / 10000 * (a * gW - gE2 * cos u ^ 2).
Proof. pose proof (D_b u) as (_ & D). pose proof N1_b as NB. fold gN in NB. pose proof ar_pos. apply Rabs_le. lra. Qed.
Lemma gcor_b u : 0 < cos u -> Rabs (gcor u) <= 4005 / 10000 * Rabs (sin u * cos u).
Proof.
  intros C. rewrite gcor_form by exact C. pose proof (gN_D u) as N. pose proof (D_b u) as (D & _). pose proof a2_1. set (Dn := a * gW - gE2 * cos u ^ 2) in *. assert (0 < Dn) by lra. unfold Rdiv at 1. rewrite Rabs_mult, Rabs_inv, Rabs_mult, (Rabs_pos_eq Dn) by lra.
  apply Rmult_le_reg_r with Dn; [lra|]. rewrite Rmult_assoc, Rinv_l, Rmult_1_r by lra. pose proof (Rabs_pos (sin u * cos u)). set (w := Rabs (sin u * cos u)) in *. clearbody w. clearbody Dn. clear - N H0 H1. nra.
Qed.
Lemma gcor_lip u v : 0 < cos u -> 0 < cos v -> Rabs (gcor u - gcor v) <= 472 / 1000 * Rabs (u - v).
Proof.
  intros Cu Cv. rewrite !gcor_form by assumption. pose proof (gN_D u) as N. pose proof (D_b u) as (D & _). pose proof (D_b v) as (D' & _). pose proof a2_1 as A1. pose proof E2_b as E. set (Du := a * gW - gE2 * cos u ^ 2) in *. set (Dv := a * gW - gE2 * cos v ^ 2) in *.
  assert (S1 : Rabs (sin u * cos u - sin v * cos v) <= Rabs (u - v)).
  { replace (sin u * cos u - sin v * cos v) with (1 / 2 * (sin (2 * u) - sin (2 * v))) by (rewrite !sin_2a; lra). rewrite Rabs_mult, (Rabs_pos_eq (1 / 2)) by lra. pose proof (sin_lip (2 * u) (2 * v)) as L. replace (2 * u - 2 * v) with (2 * (u - v)) in L by ring. rewrite Rabs_mult, (Rabs_pos_eq 2) in L by lra. lra. }
  assert (S2 : Rabs (Dv - Du) <= gE2 * Rabs (u - v)).
  { replace (Dv - Du) with (gE2 * (1 / 2 * (cos (2 * u) - cos (2 * v)))) by (unfold Du, Dv; rewrite !cos_2a_cos; lra). rewrite !Rabs_mult, (Rabs_pos_eq gE2), (Rabs_pos_eq (1 / 2)) by lra. apply Rmult_le_compat_l; [lra|]. pose proof (cos_lip (2 * u) (2 * v)) as L. replace (2 * u - 2 * v) with (2 * (u - v)) in L by ring. rewrite Rabs_mult, (Rabs_pos_eq 2) in L by lra. lra. }
  replace (gN * (sin u * cos u) / Du - gN * (sin v * cos v) / Dv) with (gN / Du * ((sin u * cos u - sin v * cos v) + sin v * cos v * ((Dv - Du) / Dv))) by (field; split; lra).
  rewrite Rabs_mult. assert (K1 : Rabs (gN / Du) <= 4005 / 10000). { unfold Rdiv at 1. rewrite Rabs_mult, Rabs_inv, (Rabs_pos_eq Du) by lra. apply Rmult_le_reg_r with Du; [lra|]. rewrite Rmult_assoc, Rinv_l by lra. lra. }
  assert (K2 : Rabs ((Dv - Du) / Dv) <= 3525 / 10000 * Rabs (u - v)).
  { unfold Rdiv at 1. rewrite Rabs_mult, Rabs_inv, (Rabs_pos_eq Dv) by lra. apply Rmult_le_reg_r with Dv; [lra|]. rewrite Rmult_assoc, Rinv_l, Rmult_1_r by lra. apply Rle_trans with (1 := S2). pose proof (Rabs_pos (u - v)). set (w := Rabs (u - v)) in *. clearbody w. assert (gE2 <= 3525 / 10000 * Dv) by lra. clearbody Dv. set (g2 := gE2) in *. clearbody g2. clear - H H0. nra. }
  apply Rle_trans with (4005 / 10000 * (Rabs (u - v) + 1 / 2 * (3525 / 10000 * Rabs (u - v)))); [|pose proof (Rabs_pos (u - v)); lra]. apply Rmult_le_compat; try apply Rabs_pos; [exact K1|]. apply Rle_trans with (1 := Rabs_triang _ _). apply Rplus_le_compat; [exact S1|]. rewrite Rabs_mult. apply Rmult_le_compat; try apply Rabs_pos; [apply sc_half|exact K2].
Qed.
Lemma g_er : er (134) 1 gf (gcor t) /\ er 270 (cos t) gf (gcor t).
Proof.
  pose proof ct_b as C. pose proof c_lo as CL. pose proof ar_pos as AR. pose proof aW_b as (WB & _). pose proof (Den_lo _ C) as DL.
  assert (SE : a * gW <= a * gW / cos t). { apply Rmult_le_reg_r with (cos t); [lra|]. unfold Rdiv. rewrite (Rmult_assoc _ (/ cos t)), Rinv_l, !Rmult_1_r by lra. set (w := a * gW) in *. clearbody w. clear - C WB AR. nra. }
  assert (DP : 0 < gDen (cos t)) by lra. assert (I := rl_inv _ _ _ Den_rl ltac:(lra) ltac:(lra)). destruct I as [I _].
  set (S2 := cos t / (a * r)). assert (S2P : 0 < S2) by (unfold S2; apply Rmult_lt_0_compat; [lra|apply Rinv_0_lt_compat; lra]).
  assert (IB : Rabs (/ gDen (cos t)) <= 15764 / 10000 * S2).
  { rewrite Rabs_pos_eq by (left; apply Rinv_0_lt_compat; exact DP). unfold S2. apply Rmult_le_reg_r with (gDen (cos t)); [exact DP|]. rewrite Rinv_l by lra.
    apply Rle_trans with (15764 / 10000 * (cos t / (a * r)) * (7394 / 10000 * (858 / 1000 * (a * r) / cos t))).
    - replace (15764 / 10000 * (cos t / (a * r)) * (7394 / 10000 * (858 / 1000 * (a * r) / cos t))) with (15764 / 10000 * (7394 / 10000) * (858 / 1000)) by (field; repeat split; try lra; split; lra). lra.
    - apply Rmult_le_compat_l; [fold S2; lra|]. apply Rle_trans with (2 := proj1 DL). apply Rmult_le_compat_l; [lra|]. apply Rmult_le_compat_r; [left; apply Rinv_0_lt_compat; lra|lra]. }
  assert (I2 := rl_er _ S2 (15764 / 10000) _ _ I IB ltac:(lra) ltac:(lra)).
  pose proof N1_b as NB. fold gN in NB. assert (SG : / 1000 <= sg) by (unfold sg; pose proof (Rabs_pos (sin t)); lra).
  assert (NN : Rabs (gN * sin t) <= 254 / 1000 * (a * r * sg)). { rewrite Rabs_mult. replace (254 / 1000 * (a * r * sg)) with ((254 / 1000 * (a * r)) * sg) by ring. apply Rmult_le_compat; try apply Rabs_pos; [apply Rabs_le; lra|unfold sg; lra]. }
  assert (SP : 0 <= a * r * sg) by (apply Rmult_le_pos; lra).
  assert (T := er_times _ _ _ _ (254 / 1000) (15764 / 10000) _ _ _ _ num_er I2 NN IB SP ltac:(lra) ltac:(lra) ltac:(lra) ltac:(lra)).
  assert (SC : a * r * sg * S2 <= 501 / 1000 * 1). { unfold S2, sg. replace (a * r * (Rabs (sin t) + / 1000) * (cos t / (a * r))) with (Rabs (sin t) * cos t + / 1000 * cos t) by (field; split; lra). pose proof (sc_half t) as H. rewrite Rabs_mult, (Rabs_pos_eq (cos t)) in H by lra. lra. }
  assert (SC1 : a * r * sg * S2 <= 1001 / 1000 * cos t). { unfold S2, sg. replace (a * r * (Rabs (sin t) + / 1000) * (cos t / (a * r))) with (Rabs (sin t) * cos t + / 1000 * cos t) by (field; split; lra). assert (Rabs (sin t) <= 1) by (apply Rabs_le; pose proof (SIN_bound t); lra). assert (Rabs (sin t) * cos t <= 1 * cos t) by (apply Rmult_le_compat_r; lra). lra. }
  assert (T2 := er_scale _ _ 1 (501 / 1000) _ _ T SC ltac:(lra) ltac:(lra)). assert (T3 := er_scale _ _ (cos t) (1001 / 1000) _ _ T SC1 ltac:(lra) ltac:(lra)).
  split; [|eapply er_weaken; [apply (er_rnd _ _ (401 / 1000) _ _ T3)|lra|lra]; try lra;
    [change (Rabs (gcor t) <= 401 / 1000 * cos t); apply Rle_trans with (1 := gcor_b t ltac:(lra)); rewrite Rabs_mult, (Rabs_pos_eq (cos t)) by lra; assert (Rabs (sin t) <= 1) by (apply Rabs_le; pose proof (SIN_bound t); lra); assert (Rabs (sin t) * cos t <= 1 * cos t) by (apply Rmult_le_compat_r; lra); lra|apply (inv10 18); [lia|lra]]].
  eapply er_weaken; [apply (er_rnd _ _ (2003 / 10000) _ _ T2)|lra|lra]; try lra.
  - change (Rabs (gcor t) <= 2003 / 10000 * 1). apply Rle_trans with (1 := gcor_b t ltac:(lra)). pose proof (sc_half t). lra.
  - apply tny_small. lra.
Qed.
Let B1f := fl_add t gf.
Lemma pull w : - PI / 2 < w < PI / 2 -> Rabs (w + gcor w) <= Rabs w.
Proof.
  intros BB. assert (C : 0 < cos w) by (apply cos_gt_0; lra). pose proof (gcor_b w C) as B. pose proof (gcor_form w C) as F. pose proof N1_b as NB. fold gN in NB. pose proof (D_b w) as (D & _). pose proof a2_1. set (Dn := a * gW - gE2 * cos w ^ 2) in *. assert (DP : 0 < / Dn) by (apply Rinv_0_lt_compat; lra).
  pose proof (sin_abs_le w) as SA. pose proof (COS_bound w) as CB. rewrite Rabs_mult, (Rabs_pos_eq (cos w)) in B by lra. assert (B2 : Rabs (gcor w) <= 2 * Rabs w). { apply Rle_trans with (1 := B). pose proof (Rabs_pos w). pose proof (Rabs_pos (sin w)). assert (Rabs (sin w) * cos w <= Rabs (sin w) * 1) by (apply Rmult_le_compat_l; lra). lra. }
  assert (SG : w * gcor w <= 0).
  { rewrite F. unfold Rdiv. replace (w * (gN * (sin w * cos w) * / Dn)) with (gN * ((w * sin w) * (cos w * / Dn))) by ring. assert (0 <= w * sin w). { destruct (Rle_lt_dec 0 w) as [P|P]; [assert (0 <= sin w) by (apply sin_ge_0; lra); now apply Rmult_le_pos|]. assert (0 <= sin (- w)) by (apply sin_ge_0; lra). rewrite sin_neg in H0. clear - H0 P. nra. }
    assert (0 <= cos w * / Dn) by (apply Rmult_le_pos; lra). assert (0 <= (w * sin w) * (cos w * / Dn)) by (apply Rmult_le_pos; assumption). set (v := w * sin w * (cos w * / Dn)) in *. clearbody v. pose proof ar_pos. assert (gN <= 0) by lra. clear - H2 H4. nra. }
  now apply pull_in.
Qed.
Lemma B1_b : Rabs gB1 <= Rabs gB0 /\ Rabs gB1 <= PI / 2.
Proof.
  assert (BB : - PI / 2 < gB0 < PI / 2) by apply atan_bound. assert (L : Rabs gB1 <= Rabs gB0) by (unfold gB1; now apply pull).
  split; [exact L|]. apply Rle_trans with (1 := L). apply Rabs_le. lra.
Qed.
Lemma B1_err : Rabs (B1f - gB1) <= 230 * uu.
Proof.
  pose proof t_err as T. pose proof g_er as ((_ & G) & _). pose proof (gcor_lip t gB0 ltac:(pose proof c_lo; lra) ltac:(pose proof c0_lo; lra)) as L. pose proof B1_b as (_ & B). pose proof L_vin3.pi_315 as PI3. pose proof uu_pos as U0. pose proof uu_small as U1.
  assert (X : Rabs (t + gf - gB1) <= 2283 / 10 * uu). { unfold gB1. replace (t + gf - (gB0 + gcor gB0)) with ((t - gB0) + (gf - gcor t) + (gcor t - gcor gB0)) by ring. apply Rle_trans with (1 := Rabs_triang _ _). apply Rle_trans with (1 := Rplus_le_compat_r _ _ _ (Rabs_triang _ _)). lra. }
  assert (Y : Rabs (t + gf) <= 16 / 10). { replace (t + gf) with ((t + gf - gB1) + gB1) by ring. apply Rle_trans with (1 := Rabs_triang _ _). lra. }
  pose proof (rnd_err _ _ Y ltac:(apply tny_small; lra)) as Z. unfold B1f, fl_add. replace (rnd (t + gf) - gB1) with ((rnd (t + gf) - (t + gf)) + (t + gf - gB1)) by ring. apply Rle_trans with (1 := Rabs_triang _ _). lra.
Qed.
Lemma B1_cos : 4 / 10 ^ 17 <= cos B1f /\ Rabs B1f < PI / 2 /\ 0 < cos gB1 /\ Rabs gB1 < PI / 2.
Proof.
  pose proof B1_b as (B & _). pose proof L_vin3.pi_315 as PI3. pose proof PI_RGT_0. assert (BB : - PI / 2 < gB0 < PI / 2) by apply atan_bound.
  assert (B0 : Rabs gB1 < PI / 2) by (apply Rle_lt_trans with (1 := B); apply Rabs_def1; lra).
  pose proof t_lt as TL. pose proof ct_b as C. pose proof g_er as (_ & (_ & G)). pose proof uu_pos as U0. pose proof uu_small as U1. assert (TT : - PI / 2 < t < PI / 2) by (apply Rabs_def2 in TL; lra). pose proof (pull t TT) as P.
  assert (CT : cos t <= PI / 2 - Rabs t). { assert (E : cos t = cos (Rabs t)) by (unfold Rabs; destruct (Rcase_abs t); [symmetry; apply cos_neg|reflexivity]). rewrite E, <- sin_shift. apply Rlt_le, sin_lt_x. lra. }
  assert (Q : Rabs (t + gf) <= PI / 2). { replace (t + gf) with ((t + gcor t) + (gf - gcor t)) by ring. apply Rle_trans with (1 := Rabs_triang _ _). assert (270 * uu * cos t <= 1 * cos t) by (apply Rmult_le_compat_r; lra). lra. }
  pose proof (rnd_quarter _ Q) as Z. change (rnd (t + gf)) with B1f in Z. split; [apply cos_quarter, Z|]. split; [pose proof dlt; lra|]. split; [|exact B0]. apply Rabs_def2 in B0. apply cos_gt_0; lra.
Qed.

Lemma kap_b : 1 <= a / b <= 1112 / 1000.
Proof. assert (0 < b) by lra. split; apply Rmult_le_reg_r with b; try assumption; unfold Rdiv; rewrite Rmult_assoc, Rinv_l by lra; lra. Qed.
Lemma kap_rl : rl (302 / 100) (fl_div af bf) (a / b).
Proof. pose proof kap_b. eapply rl_weaken; [apply (rl_div _ _ _ _ _ _ af_rl bf_rl); [lra|apply tny_small; rewrite Rabs_pos_eq; lra|lra]|lra]. Qed.
Lemma big_1 n : 1 <= 10 ^ n. Proof. apply p_le. Qed.
Lemma lat_err : Rabs (l_atan lk (fl_mul (fl_div af bf) (l_tan lk B1f)) - atan (a / b * tan gB1)) <= 270 * uu.
Proof.
  pose proof B1_cos as (C1 & L1 & C2 & L2). pose proof B1_err as E. pose proof kap_b as K. pose proof uu_pos as U0. pose proof uu_small as U1.
  assert (TT : Rabs (l_tan lk B1f - tan B1f) <= 4 * uu * Rabs (tan B1f) + 1 / 1000 * uu). { destruct M as (_ & _ & _ & Q & _). apply Rle_trans with (1 := Q B1f (rnd_double _) L1). pose proof e330. lra. }
  assert (TB : Rabs (tan B1f) <= 10 ^ 17).
  { unfold tan, Rdiv. rewrite Rabs_mult, Rabs_inv, (Rabs_pos_eq (cos B1f)) by lra. apply Rmult_le_reg_r with (cos B1f); [lra|]. rewrite Rmult_assoc, Rinv_l, Rmult_1_r by lra. pose proof (SIN_bound B1f). assert (Rabs (sin B1f) <= 1) by (apply Rabs_le; lra). lra. }
  set (vf := fl_mul (fl_div af bf) (l_tan lk B1f)). set (v := a / b * tan B1f).
  assert (A : Rabs (atan vf - atan v) <= 9 * uu /\ Rabs vf <= 10 ^ 200).
  { assert (KB : Rabs (a / b) <= 1112 / 1000 * 1) by (rewrite Rabs_pos_eq; lra). destruct (Rle_lt_dec (Rabs (tan B1f)) 1) as [T|T].
    - assert (E1 := rl_er _ 1 (1112 / 1000) _ _ kap_rl KB ltac:(lra) ltac:(lra)). assert (E2 : er (401 / 100) 1 (l_tan lk B1f) (tan B1f)) by (split; [lra|]; assert (uu * Rabs (tan B1f) <= uu * 1) by (apply Rmult_le_compat_l; lra); lra).
      assert (E3 := er_times _ _ _ _ (1112 / 1000) 1 _ _ _ _ E1 E2 KB ltac:(lra) ltac:(lra) ltac:(lra) ltac:(lra) ltac:(lra) ltac:(lra)).
      assert (VB : Rabs v <= 1112 / 1000 * (1 * 1)). { unfold v. rewrite Rabs_mult. replace (1112 / 1000 * (1 * 1)) with (1112 / 1000 * 1) by ring. apply Rmult_le_compat; try apply Rabs_pos; lra. }
      assert (E4 := er_rnd _ _ (1112 / 1000) _ _ E3 VB ltac:(apply tny_small; lra) ltac:(lra) ltac:(lra)). destruct E4 as (_ & E4). change (rnd (fl_div af bf * l_tan lk B1f)) with vf in E4. fold v in E4. split.
      + destruct (atan_mvt vf v) as (c & _ & ->). unfold Rdiv. rewrite Rabs_mult, Rabs_inv, (Rabs_pos_eq (1 + c ^ 2)) by (pose proof (pow2_ge_0 c); lra). apply Rle_trans with (Rabs (vf - v) * 1); [apply Rmult_le_compat_l; [apply Rabs_pos|]; apply Rle_trans with (/ 1); [apply Rinv_le_contravar; [lra|pose proof (pow2_ge_0 c); lra]|lra]|lra].
      + apply Rle_trans with (10 ^ 1); [|apply big_le; lia]. replace vf with ((vf - v) + v) by ring. apply Rle_trans with (1 := Rabs_triang _ _). simpl. lra.
    - assert (T4 : rl (401 / 100) (l_tan lk B1f) (tan B1f)) by (split; [lra|]; assert (uu * 1 <= uu * Rabs (tan B1f)) by (apply Rmult_le_compat_l; lra); lra).
      assert (VL : 1 <= Rabs v). { unfold v. rewrite Rabs_mult, (Rabs_pos_eq (a / b)) by lra. clear - T K. set (w := Rabs (tan B1f)) in *. clearbody w. set (k := a / b) in *. clearbody k. nra. }
      assert (R1 := rl_mul _ _ _ _ _ _ kap_rl T4 ltac:(apply tny_small; fold v; lra) ltac:(lra)). fold vf v in R1. split; [apply Rle_trans with (1 := atan_rl _ _ _ R1 ltac:(lra)); lra|]. destruct R1 as (_ & R1).
      apply Rle_trans with (10 ^ 19); [|apply big_le; lia]. assert (VV : Rabs v <= 1112 / 1000 * 10 ^ 17) by (unfold v; rewrite Rabs_mult; apply Rmult_le_compat; try apply Rabs_pos; lra). assert ((302 / 100 + 401 / 100 + 1 + / 100) * uu * Rabs v <= 1 * Rabs v) by (apply Rmult_le_compat_r; lra). replace vf with ((vf - v) + v) by ring. apply Rle_trans with (1 := Rabs_triang _ _). simpl in *. lra. }
  destruct A as (A & VF). destruct M as (_ & _ & _ & _ & Q & _). specialize (Q vf (rnd_double _) VF).
  assert (B : Rabs (atan v - atan (a / b * tan gB1)) <= 1112 / 1000 * (230 * uu)). { apply Rle_trans with (a / b * Rabs (B1f - gB1)); [apply atan_tan_lip; try lra; apply Rabs_def2 in L1; apply Rabs_def2 in L2; lra|]. apply Rmult_le_compat; try lra; apply Rabs_pos. }
  replace (l_atan lk vf - atan (a / b * tan gB1)) with ((l_atan lk vf - atan vf) + (atan vf - atan v) + (atan v - atan (a / b * tan gB1))) by ring. apply Rle_trans with (1 := Rabs_triang _ _). apply Rle_trans with (1 := Rplus_le_compat_r _ _ _ (Rabs_triang _ _)). lra.
Qed.
(** One coordinate of the vector from the point of the ellipsoid. *)
Lemma side k wf w ef e0 tf u1 u0 : rl 1 ef e0 -> 1 / 2 <= e0 <= a -> er k r wf w -> Rabs w <= r -> k <= 10 -> er 4 1 tf u1 -> Rabs (u1 - u0) <= 230 * uu -> Rabs u1 <= 1 -> Rabs u0 <= 1 ->
  er (k + 2805 / 10) r (fl_sub wf (fl_mul ef tf)) (w - e0 * u0).
Proof.
  intros E1 EB E2 WB K E3 D U1 U0. pose proof uu_pos as P. pose proof uu_small. assert (AR : a <= 1177 / 1000 * r) by lra. pose proof r_pos as RP. assert (K0 := proj1 E2).
  assert (X1 := rl_er _ r (1177 / 1000) _ _ E1 ltac:(rewrite Rabs_pos_eq; lra) ltac:(lra) ltac:(lra)).
  assert (X2 := er_times _ _ _ _ (1177 / 1000) 1 _ _ _ _ X1 E3 ltac:(rewrite Rabs_pos_eq; lra) ltac:(lra) ltac:(lra) ltac:(lra) ltac:(lra) ltac:(lra) ltac:(lra)).
  assert (PB : forall q, Rabs q <= 1 -> Rabs (e0 * q) <= 1177 / 1000 * (r * 1)). { intros q Q. rewrite Rabs_mult, (Rabs_pos_eq e0) by lra. rewrite <- Rmult_assoc. apply Rmult_le_compat; try lra. apply Rabs_pos. }
  assert (X3 := er_rnd _ _ (1177 / 1000) _ _ X2 (PB u1 U1) ltac:(apply tny_small; lra) ltac:(lra) ltac:(lra)).
  assert (X4 : er (2708 / 10) (r * 1) (e0 * u1) (e0 * u0)). { split; [lra|]. rewrite <- Rmult_minus_distr_l, Rabs_mult, (Rabs_pos_eq e0) by lra. apply Rle_trans with ((1177 / 1000 * r) * (230 * uu)); [apply Rmult_le_compat; try lra; apply Rabs_pos|]. assert (0 <= uu * r) by (apply Rmult_le_pos; lra). lra. }
  assert (X5 := er_trans _ _ _ _ _ _ X3 X4 ltac:(lra)). replace (r * 1) with r in X5 by ring. specialize (PB u0 U0). rewrite Rmult_1_r in PB.
  eapply er_weaken; [apply (er_sub _ _ r (2177 / 1000) _ _ _ _ E2 X5)|lra|lra]; try lra.
  - apply Rle_trans with (1 := Rabs_triang _ _). rewrite Rabs_Ropp. lra.
  - apply tny_small. lra.
Qed.
Lemma alt_err : Rabs (l_hypot m (fl_sub z (fl_mul bf (l_sin m B1f))) (fl_sub Pf (fl_mul af (l_cos m B1f))) - hypot (z - b * sin gB1) (hypot x y - a * cos gB1)) <= 420 * uu * r.
Proof.
  pose proof B1_cos as (C1 & L1 & C2 & L2). pose proof B1_err as E. pose proof uu_pos as U0. pose proof uu_small as U1. pose proof r_pos as RP. pose proof L_vin3.pi_315 as P3.
  assert (S1 : er 4 1 (l_sin m B1f) (sin B1f)). { split; [lra|]. destruct M as ((Q & _) & _). replace (4 * uu * 1) with (4 * uu) by ring. apply Q; [apply rnd_double|lra]. }
  assert (S2 : er 4 1 (l_cos m B1f) (cos B1f)). { split; [lra|]. destruct M as ((_ & Q & _) & _). replace (4 * uu * 1) with (4 * uu) by ring. apply Q; [apply rnd_double|lra]. }
  assert (AS : forall w, Rabs (sin w) <= 1) by (intros w; apply Rabs_le; pose proof (SIN_bound w); lra). assert (AC : forall w, Rabs (cos w) <= 1) by (intros w; apply Rabs_le; pose proof (COS_bound w); lra).
  assert (X1 := side 0 z z bf b (l_sin m B1f) (sin B1f) (sin gB1) bf_rl ltac:(lra) (er_exact r z ltac:(lra)) z_le ltac:(lra) S1 (Rle_trans _ _ _ (sin_lip _ _) E) (AS _) (AS _)).
  assert (PE : er (405 / 100) r Pf (hypot x y)). { eapply er_weaken; [apply (rl_er _ r 1 _ _ P_rl); [rewrite Rabs_pos_eq by apply hypot_nonneg; rewrite Rmult_1_l; apply p_le_r|lra|lra]|lra|lra]. }
  assert (X2 := side _ _ _ af a (l_cos m B1f) (cos B1f) (cos gB1) af_rl ltac:(lra) PE ltac:(rewrite Rabs_pos_eq by apply hypot_nonneg; apply p_le_r) ltac:(lra) S2 (Rle_trans _ _ _ (cos_lip _ _) E) (AC _) (AC _)).
  set (pf := fl_sub z (fl_mul bf (l_sin m B1f))) in *. set (qf2 := fl_sub Pf (fl_mul af (l_cos m B1f))) in *. set (p := z - b * sin gB1) in *. set (q := hypot x y - a * cos gB1) in *.
  destruct X1 as (_ & X1). destruct X2 as (_ & X2). assert (UR : 0 <= uu * r) by (apply Rmult_le_pos; lra).
  assert (D : Rabs (hypot pf qf2 - hypot p q) <= 4025 / 10 * uu * r).
  { apply Rle_trans with (1 := L_ecefacc2.hypot_lip _ _ _ _). unfold hypot. set (d1 := pf - p) in *. set (d2 := qf2 - q) in *. clearbody d1 d2. apply sq_le_inv; [lra|]. rewrite pow2_sqrt by (pose proof (pow2_ge_0 d1); pose proof (pow2_ge_0 d2); lra). rewrite <- (pow2_abs d1), <- (pow2_abs d2).
    assert (Rabs d1 ^ 2 <= (2846 / 10 * (uu * r)) ^ 2) by (apply pow_incr; split; [apply Rabs_pos|lra]). assert (Rabs d2 ^ 2 <= (2846 / 10 * (uu * r)) ^ 2) by (apply pow_incr; split; [apply Rabs_pos|lra]). replace (4025 / 10 * uu * r) with (4025 / 10 * (uu * r)) by ring. set (w := uu * r) in *. clearbody w. nra. }
  assert (AR : a <= 1177 / 1000 * r) by lra.
  assert (HB : hypot p q <= 4 * r).
  { apply Rle_trans with (1 := hypot_tri p q). unfold p, q. pose proof z_le as ZL. pose proof p_le_r as PL. pose proof (hypot_nonneg x y). pose proof (AS gB1) as SS. pose proof (COS_bound gB1) as CC.
    assert (Rabs (z - b * sin gB1) <= r + a). { apply Rle_trans with (1 := Rabs_triang _ _). rewrite Rabs_Ropp, Rabs_mult, (Rabs_pos_eq b) by lra. assert (b * Rabs (sin gB1) <= a * 1) by (apply Rmult_le_compat; try lra; apply Rabs_pos). lra. }
    assert (a * cos gB1 <= a * 1) by (apply Rmult_le_compat_l; lra). assert (0 <= a * cos gB1) by (apply Rmult_le_pos; lra). assert (Rabs (hypot x y - a * cos gB1) <= 1177 / 1000 * r) by (apply Rabs_le; lra). lra. }
  assert (HB2 : hypot pf qf2 <= 41 / 10 * r). { assert (4025 / 10 * uu * r <= 1 / 10 * r) by (apply Rmult_le_compat_r; lra). apply Rabs_le_inv in D. lra. }
  destruct M as (_ & _ & _ & _ & _ & _ & _ & _ & _ & _ & _ & _ & _ & Q). specialize (Q pf qf2 (rnd_double _) (rnd_double _)). fold m in Q.
  assert (HH : hypot pf qf2 <= 10 ^ 200). { apply Rle_trans with (1 := HB2). apply Rle_trans with (10 ^ 41); [|apply big_le; lia]. change (10 ^ 41) with (10 * 10 ^ 40). assert (r <= 10 ^ 40) by lra. set (tt := 10 ^ 40) in *. clearbody tt. lra. }
  specialize (Q HH). pose proof e300 as E3. set (s := / 10 ^ 300) in *. clearbody s. assert (4 * uu * hypot pf qf2 <= 4 * uu * (41 / 10 * r)) by (apply Rmult_le_compat_l; lra). assert (uu * (85 / 100) <= uu * r) by (apply Rmult_le_compat_l; lra).
  replace (l_hypot m pf qf2 - hypot p q) with ((l_hypot m pf qf2 - hypot pf qf2) + (hypot pf qf2 - hypot p q)) by ring. apply Rle_trans with (1 := Rabs_triang _ _). lra.
Qed.
(** The inside test. *)
Definition gS : R := x ^ 2 / a ^ 2 + y ^ 2 / a ^ 2 + z ^ 2 / b ^ 2.
Lemma quo_far v d : far v -> / 2 <= d <= 10 ^ 60 -> v ^ 2 / d = 0 \/ / 10 ^ 220 <= v ^ 2 / d.
Proof.
  intros F D. destruct (far_sq v F) as [Z|L]; [left; rewrite Z; unfold Rdiv; ring|right]. change 220%nat with (160 + 60)%nat. rewrite pow_add, Rinv_mult. unfold Rdiv. apply Rmult_le_compat; try (left; apply p10); [exact L|]. apply Rinv_le_contravar; lra.
Qed.
Lemma d60 : / 2 <= a ^ 2 <= 10 ^ 60 /\ / 2 <= b ^ 2 <= 10 ^ 60.
Proof.
  pose proof a2_1. pose proof b2_a2. assert (A : a ^ 2 <= 10 ^ 60) by (replace (10 ^ 60) with ((10 ^ 30) ^ 2) by (rewrite <- pow_mult; reflexivity); apply pow_incr; lra). set (tt := 10 ^ 60) in *. clearbody tt. assert (/ 2 <= b ^ 2) by (assert (9 / 10 <= b) by lra; clear - H1; nra). lra.
Qed.
Lemma inside_er : Rabs (fl_add (fl_add (fl_div (l_sq m x) a2f) (fl_div (l_sq m y) a2f)) (fl_div (l_sq m z) b2f) - gS) <= 92 / 10 * uu * gS /\ 0 <= gS.
Proof.
  pose proof (sq_rl x Dx Fx x_le) as R1. pose proof (sq_rl y Dy Fy y_le) as R2. pose proof (sq_rl z Dz Fz z_le) as R3. pose proof d60 as (DA & DB).
  assert (A0 : a ^ 2 <> 0) by (pose proof a2_1; lra). assert (B0 : b ^ 2 <> 0) by (pose proof b2_a2; lra).
  pose proof (quo_far x _ Fx DA) as Q1. pose proof (quo_far y _ Fy DA) as Q2. pose proof (quo_far z _ Fz DB) as Q3.
  assert (N1 : 0 <= x ^ 2 / a ^ 2) by (apply Rmult_le_pos; [apply pow2_ge_0|left; apply Rinv_0_lt_compat; pose proof a2_1; lra]). assert (N2 : 0 <= y ^ 2 / a ^ 2) by (apply Rmult_le_pos; [apply pow2_ge_0|left; apply Rinv_0_lt_compat; pose proof a2_1; lra]). assert (N3 : 0 <= z ^ 2 / b ^ 2) by (apply Rmult_le_pos; [apply pow2_ge_0|left; apply Rinv_0_lt_compat; pose proof b2_a2; lra]).
  assert (T : forall w, 0 <= w -> (w = 0 \/ / 10 ^ 220 <= w) -> w = 0 \/ tny <= Rabs w) by (intros w W [H|H]; [left; exact H|right; rewrite Rabs_pos_eq by exact W; apply (inv10 220); [lia|exact H]]).
  assert (X1 := rl_div0 _ _ _ _ _ _ R1 a2f_rl A0 (T _ N1 Q1) ltac:(lra)). assert (X2 := rl_div0 _ _ _ _ _ _ R2 a2f_rl A0 (T _ N2 Q2) ltac:(lra)). assert (X3 := rl_div0 _ _ _ _ _ _ R3 b2f_rl B0 (T _ N3 Q3) ltac:(lra)).
  assert (A1 := rl_add (713 / 100) _ _ _ _ _ _ X1 X2 N1 N2 ltac:(lra) ltac:(lra) (far_tny _ 220 ltac:(lia) (add_far _ _ _ Q1 Q2)) ltac:(lra)).
  assert (A2 := rl_add (814 / 100) _ _ _ _ _ _ A1 X3 ltac:(lra) N3 ltac:(lra) ltac:(lra) (far_tny _ 220 ltac:(lia) (add_far _ _ _ (add_far _ _ _ Q1 Q2) Q3)) ltac:(lra)).
  assert (GN : 0 <= gS) by (unfold gS; lra). split; [|exact GN]. destruct A2 as (_ & A2). fold gS in A2. rewrite (Rabs_pos_eq gS) in A2 by exact GN. assert (0 <= uu * gS) by (apply Rmult_le_pos; [pose proof uu_pos; lra|exact GN]). lra.
Qed.
End Geo.
