(** More error calculus: errors on a given scale, square roots, arctangents, library calls. *)
From Coq Require Import Reals ZArith Lra Lia Psatz.
From Flocq Require Import Core.
From Verif Require Import PyMath L_PyMath M_ellipsoid M_float M_floatenu M_floatgeo Spec_float P_float L_float P_rounding.
Open Scope R_scope.

Definition er (e S xf x : R) : Prop := 0 <= e <= 100000 /\ Rabs (xf - x) <= e * uu * S.

Lemma er_weaken e e' S xf x : er e S xf x -> 0 <= S -> e <= e' <= 100000 -> er e' S xf x.
Proof. intros (K & E) HS H. split; [lra|]. apply Rle_trans with (1 := E). pose proof uu_pos. apply Rmult_le_compat_r; [lra|]. apply Rmult_le_compat_r; lra. Qed.
Lemma er_scale e S S' c xf x : er e S xf x -> S <= c * S' -> 0 <= c -> e * c <= 100000 -> er (e * c) S' xf x.
Proof. intros (K & E) HS Hc H. split; [split; [nra|lra]|]. apply Rle_trans with (1 := E). pose proof uu_pos. replace (e * c * uu * S') with (e * uu * (c * S')) by ring. apply Rmult_le_compat_l; [nra|lra]. Qed.
Lemma er_opp e S xf x : er e S xf x -> er e S (- xf) (- x).
Proof. intros (K & E). split; [lra|]. replace (- xf - - x) with (- (xf - x)) by ring. now rewrite Rabs_Ropp. Qed.
Lemma er_exact S x : 0 <= S -> er 0 S x x.
Proof. intros H. split; [lra|]. rewrite Rminus_diag_eq, Rabs_R0 by reflexivity. lra. Qed.
Lemma er_rnd e S c xf x : er e S xf x -> Rabs x <= c * S -> tny <= c * S -> 0 < S -> e + c + / 100 <= 100000 -> er (e + c + / 100) S (rnd xf) x.
Proof.
  intros (K & E) Hx T HS He. pose proof uu_pos as U0. pose proof uu_small as U1. pose proof tny_pos as T0. assert (Hc : 0 < c) by nra. split; [lra|].
  assert (B : Rabs xf <= c * S + e * uu * S). { replace xf with ((xf - x) + x) by ring. apply Rle_trans with (1 := Rabs_triang _ _). lra. }
  assert (P : 0 <= e * uu) by nra. assert (P2 : e * uu <= / 100) by nra.
  pose proof (rnd_err xf _ B ltac:(nra)) as R1. replace (rnd xf - x) with ((rnd xf - xf) + (xf - x)) by ring. apply Rle_trans with (1 := Rabs_triang _ _).
  assert (Q : uu * (c * S + e * uu * S) <= uu * (c * S + / 100 * S)) by (apply Rmult_le_compat_l; [lra|]; apply Rplus_le_compat_l, Rmult_le_compat_r; lra). lra.
Qed.
Lemma er_plus e1 e2 S xf x yf y : er e1 S xf x -> er e2 S yf y -> e1 + e2 <= 100000 -> er (e1 + e2) S (xf + yf) (x + y).
Proof. intros (K1 & E1) (K2 & E2) H. split; [lra|]. replace (xf + yf - (x + y)) with ((xf - x) + (yf - y)) by ring. apply Rle_trans with (1 := Rabs_triang _ _). lra. Qed.
Lemma er_add e1 e2 S c xf x yf y : er e1 S xf x -> er e2 S yf y -> Rabs (x + y) <= c * S -> tny <= c * S -> 0 < S -> 0 <= c -> e1 + e2 + c + / 100 <= 100000 ->
  er (e1 + e2 + c + / 100) S (fl_add xf yf) (x + y).
Proof. intros A1 A2 H T HS Hc He. apply er_rnd; try assumption. apply er_plus; try assumption. lra. Qed.
Lemma er_sub e1 e2 S c xf x yf y : er e1 S xf x -> er e2 S yf y -> Rabs (x - y) <= c * S -> tny <= c * S -> 0 < S -> 0 <= c -> e1 + e2 + c + / 100 <= 100000 ->
  er (e1 + e2 + c + / 100) S (fl_sub xf yf) (x - y).
Proof. intros A1 A2 H T HS Hc He. exact (er_add e1 e2 S c xf x (- yf) (- y) A1 (er_opp _ _ _ _ A2) H T HS Hc He). Qed.
Lemma er_times e1 e2 S1 S2 c1 c2 xf x yf y : er e1 S1 xf x -> er e2 S2 yf y -> Rabs x <= c1 * S1 -> Rabs y <= c2 * S2 -> 0 <= S1 -> 0 <= S2 -> 0 <= c1 -> 0 <= c2 -> e1 * c2 + c1 * e2 + / 100 <= 100000 ->
  er (e1 * c2 + c1 * e2 + / 100) (S1 * S2) (xf * yf) (x * y).
Proof.
  intros (K1 & E1) (K2 & E2) H1 H2 P1 P2 C1 C2 He. pose proof uu_pos as U0. pose proof uu_small as U1. split; [split; [nra|lra]|].
  replace (xf * yf - x * y) with ((xf - x) * (yf - y) + (xf - x) * y + x * (yf - y)) by ring.
  apply Rle_trans with (1 := Rabs_triang _ _). apply Rle_trans with (1 := Rplus_le_compat_r _ _ _ (Rabs_triang _ _)). rewrite !Rabs_mult.
  assert (A1 : Rabs (xf - x) * Rabs (yf - y) <= (e1 * uu * S1) * (e2 * uu * S2)) by (apply Rmult_le_compat; try apply Rabs_pos; lra).
  assert (A2 : Rabs (xf - x) * Rabs y <= (e1 * uu * S1) * (c2 * S2)) by (apply Rmult_le_compat; try apply Rabs_pos; lra).
  assert (A3 : Rabs x * Rabs (yf - y) <= (c1 * S1) * (e2 * uu * S2)) by (apply Rmult_le_compat; try apply Rabs_pos; lra).
  assert (Q0 : e1 * e2 <= 10000000000) by nra. assert (Q1 : 0 <= e1 * e2) by nra. assert (Q : e1 * e2 * uu <= / 100) by nra.
  assert (P : 0 <= uu * (S1 * S2)) by (assert (0 <= S1 * S2) by nra; nra).
  assert (Z : (e1 * e2 * uu) * (uu * (S1 * S2)) <= / 100 * (uu * (S1 * S2))) by (apply Rmult_le_compat_r; lra).
  replace ((e1 * uu * S1) * (e2 * uu * S2)) with ((e1 * e2 * uu) * (uu * (S1 * S2))) in A1 by ring. replace ((e1 * uu * S1) * (c2 * S2)) with (e1 * c2 * (uu * (S1 * S2))) in A2 by ring. replace ((c1 * S1) * (e2 * uu * S2)) with (c1 * e2 * (uu * (S1 * S2))) in A3 by ring.
  replace ((e1 * c2 + c1 * e2 + / 100) * uu * (S1 * S2)) with (e1 * c2 * (uu * (S1 * S2)) + c1 * e2 * (uu * (S1 * S2)) + / 100 * (uu * (S1 * S2))) by ring. lra.
Qed.
Lemma rl_er k S c xf x : rl k xf x -> Rabs x <= c * S -> k * c <= 100000 -> 0 <= c -> er (k * c) S xf x.
Proof. intros (K & E) H Hk Hc. split; [split; [nra|lra]|]. apply Rle_trans with (1 := E). pose proof uu_pos. replace (k * c * uu * S) with (k * uu * (c * S)) by ring. apply Rmult_le_compat_l; [nra|lra]. Qed.
Lemma er_rl e S c xf x : er e S xf x -> 0 < c -> c * S <= Rabs x -> e / c <= 10000 -> rl (e / c) xf x.
Proof.
  intros (K & E) Hc H He. split; [split; [apply Rmult_le_pos; [lra|left; now apply Rinv_0_lt_compat]|lra]|]. apply Rle_trans with (1 := E). pose proof uu_pos.
  replace (e * uu * S) with (e / c * uu * (c * S)) by (field; lra). apply Rmult_le_compat_l; [|lra]. apply Rmult_le_pos; [apply Rmult_le_pos; [lra|left; now apply Rinv_0_lt_compat]|lra].
Qed.
Lemma rl_0 k xf : rl k xf 0 -> xf = 0.
Proof. intros (K & E). rewrite Rabs_R0, Rmult_0_r, Rminus_0_r in E. pose proof (Rabs_pos xf). destruct (Req_dec xf 0) as [Z|Z]; [exact Z|]. apply Rabs_pos_lt in Z. lra. Qed.
Lemma rl_of0 k : 0 <= k <= 10000 -> rl k 0 0.
Proof. intros H. split; [exact H|]. rewrite Rminus_0_r, Rabs_R0. lra. Qed.
Lemma rl_mul0 k1 k2 xf x yf y : rl k1 xf x -> rl k2 yf y -> (x * y = 0 \/ tny <= Rabs (x * y)) -> k1 + k2 + 1 + / 100 <= 10000 ->
  rl (k1 + k2 + 1 + / 100) (fl_mul xf yf) (x * y).
Proof.
  intros A1 A2 [H|H] Hk; [|now apply rl_mul]. assert (P1 := proj1 A1). assert (P2 := proj1 A2). assert (Z : xf * yf = 0).
  { apply Rmult_integral in H. destruct H as [->| ->]; [apply rl_0 in A1; subst; ring|apply rl_0 in A2; subst; ring]. }
  unfold fl_mul. rewrite Z, H, rnd0. apply rl_of0. lra.
Qed.
Lemma rl_div0 k1 k2 xf x yf y : rl k1 xf x -> rl k2 yf y -> y <> 0 -> (x / y = 0 \/ tny <= Rabs (x / y)) -> k1 + k2 + 1 + / 50 <= 10000 ->
  rl (k1 + k2 + 1 + / 50) (fl_div xf yf) (x / y).
Proof.
  intros A1 A2 N H Hk. assert (P1 := proj1 A1). assert (P2 := proj1 A2). destruct (rl_inv _ _ _ A2 N ltac:(lra)) as [I _]. apply rl_weaken with (k1 + (k2 + / 1000) + 1 + / 100); [|lra].
  exact (rl_mul0 k1 (k2 + / 1000) xf x (/ yf) (/ y) A1 I H ltac:(lra)).
Qed.
(** Sum of two nonnegative numbers. *)
Lemma rl_add k k1 k2 xf x yf y : rl k1 xf x -> rl k2 yf y -> 0 <= x -> 0 <= y -> k1 <= k -> k2 <= k -> (x + y = 0 \/ tny <= x + y) -> k + 1 + / 1000 <= 10000 ->
  rl (k + 1 + / 1000) (fl_add xf yf) (x + y).
Proof.
  intros A1 A2 H1 H2 K1 K2 HT Hk. assert (P1 := proj1 A1). destruct HT as [Z|T].
  - assert (x = 0) by lra. assert (y = 0) by lra. subst. apply rl_0 in A1. apply rl_0 in A2. subst. unfold fl_add. rewrite Rplus_0_l, rnd0. apply rl_of0. lra.
  - apply (rl_weaken k1 k) in A1; [|lra]. apply (rl_weaken k2 k) in A2; [|lra]. apply rl_rnd; [|rewrite Rabs_pos_eq; lra|lra]. destruct A1 as (K & A1). destruct A2 as (_ & A2). split; [lra|].
    rewrite (Rabs_pos_eq x) in A1 by lra. rewrite (Rabs_pos_eq y) in A2 by lra. rewrite (Rabs_pos_eq (x + y)) by lra. replace (xf + yf - (x + y)) with ((xf - x) + (yf - y)) by ring. apply Rle_trans with (1 := Rabs_triang _ _). lra.
Qed.
Lemma rl_sqrt k vf v : rl k vf v -> 0 < v -> tny <= sqrt v -> k <= 5000 -> rl (k / 2 + 1 + / 50) (fl_sqrt vf) (sqrt v) /\ 0 < vf.
Proof.
  intros (K & E) V T Hk. pose proof uu_pos as U0. pose proof uu_small as U1. assert (S0 : 0 <= k * uu) by nra. assert (S1 : k * uu <= / 100000) by nra. rewrite (Rabs_pos_eq v) in E by lra.
  assert (L : v * (1 - k * uu) <= vf) by (apply Rabs_le_inv in E; lra). assert (VF : 0 < vf) by nra. split; [|exact VF].
  assert (SV : 0 < sqrt v) by (apply sqrt_lt_R0; exact V).
  assert (Q : sqrt v * (1 - k * uu) <= sqrt vf). { replace (1 - k * uu) with (sqrt ((1 - k * uu) ^ 2)) by (apply sqrt_pow2; lra). rewrite <- sqrt_mult by nra. apply sqrt_le_1_alt. nra. }
  assert (D : (sqrt vf - sqrt v) * (sqrt vf + sqrt v) = vf - v) by (pose proof (sqrt_sqrt vf ltac:(lra)); pose proof (sqrt_sqrt v ltac:(lra)); replace ((sqrt vf - sqrt v) * (sqrt vf + sqrt v)) with (sqrt vf * sqrt vf - sqrt v * sqrt v) by ring; lra).
  assert (A : rl (k / 2 + / 1000) (sqrt vf) (sqrt v)).
  { split; [lra|]. rewrite (Rabs_pos_eq (sqrt v)) by lra. assert (P : 0 < sqrt vf + sqrt v) by nra. apply Rmult_le_reg_r with (sqrt vf + sqrt v); [exact P|]. rewrite <- (Rabs_pos_eq (sqrt vf + sqrt v)) at 1 by lra. rewrite <- Rabs_mult, D. apply Rle_trans with (1 := E).
    apply Rle_trans with ((k / 2 + / 1000) * uu * sqrt v * (sqrt v * (2 - k * uu))); [|apply Rmult_le_compat_l; [apply Rmult_le_pos; [nra|lra]|lra]].
    replace ((k / 2 + / 1000) * uu * sqrt v * (sqrt v * (2 - k * uu))) with ((k / 2 + / 1000) * uu * (2 - k * uu) * (sqrt v * sqrt v)) by ring. rewrite sqrt_sqrt by lra. apply Rmult_le_compat_r; [lra|].
    assert ((k / 2 + / 1000) * (k * uu) <= 2 / 1000) by nra. nra. }
  unfold fl_sqrt. eapply rl_weaken; [apply rl_rnd; [exact A|rewrite Rabs_pos_eq; lra|lra]|lra].
Qed.
Lemma rl_sqx k xf x : rl k xf x -> k <= 4000 -> rl (2 * k + / 100) (xf ^ 2) (x ^ 2).
Proof.
  intros (K & E) Hk. pose proof uu_pos as U0. pose proof uu_small as U1. split; [lra|]. replace (xf ^ 2 - x ^ 2) with ((xf - x) * (xf - x) + 2 * x * (xf - x)) by ring. apply Rle_trans with (1 := Rabs_triang _ _). rewrite !Rabs_mult, (Rabs_pos_eq 2) by lra. rewrite <- (pow2_abs x), (Rabs_pos_eq (Rabs x ^ 2)) by apply pow2_ge_0.
  pose proof (Rabs_pos x) as X. set (t := Rabs x) in *. set (d := Rabs (xf - x)) in *. assert (D0 : 0 <= d) by apply Rabs_pos.
  assert (A1 : d * d <= (k * uu * t) * (k * uu * t)) by (apply Rmult_le_compat; lra). assert (A2 : 2 * t * d <= 2 * t * (k * uu * t)) by (apply Rmult_le_compat_l; lra).
  assert (Q : k * k * uu <= / 100) by nra. assert (Z : (k * k * uu) * (uu * t ^ 2) <= / 100 * (uu * t ^ 2)) by (apply Rmult_le_compat_r; [pose proof (pow2_ge_0 t); nra|lra]). nra.
Qed.
(** Composition of a relative error with a further one. *)
Lemma rl_trans k1 k2 xf xm x : rl k1 xm x -> rl k2 xf xm -> k1 + k2 + / 100 <= 10000 -> rl (k1 + k2 + / 100) xf x.
Proof.
  intros (K1 & E1) (K2 & E2) H. pose proof uu_pos as U0. pose proof uu_small as U1. split; [lra|]. assert (B : Rabs xm <= Rabs x * (1 + k1 * uu)). { replace xm with ((xm - x) + x) by ring. apply Rle_trans with (1 := Rabs_triang _ _). lra. }
  replace (xf - x) with ((xf - xm) + (xm - x)) by ring. apply Rle_trans with (1 := Rabs_triang _ _). pose proof (Rabs_pos x) as X. assert (P : 0 <= k2 * uu) by nra.
  assert (A : k2 * uu * Rabs xm <= k2 * uu * (Rabs x * (1 + k1 * uu))) by (apply Rmult_le_compat_l; lra).
  assert (Q : k2 * k1 * uu <= / 100) by (assert (0 <= k2 * k1) by nra; assert (k2 * k1 <= 100000000) by nra; nra). assert (Z : (k2 * k1 * uu) * (uu * Rabs x) <= / 100 * (uu * Rabs x)) by (apply Rmult_le_compat_r; [nra|lra]). nra.
Qed.
Lemma atan_mvt p q : exists c, (p <= c <= q \/ q <= c <= p) /\ atan p - atan q = (p - q) / (1 + c ^ 2).
Proof.
  destruct (Rtotal_order p q) as [H|[->|H]].
  - destruct (MVT_cor2 atan (fun t => / (1 + t ^ 2)) p q H) as (c & E & C). { intros t _. apply derivable_pt_lim_atan. }
    exists c. split; [left; lra|]. unfold Rdiv. lra.
  - exists q. split; [left; lra|]. rewrite !Rminus_diag_eq by reflexivity. unfold Rdiv. ring.
  - destruct (MVT_cor2 atan (fun t => / (1 + t ^ 2)) q p H) as (c & E & C). { intros t _. apply derivable_pt_lim_atan. }
    exists c. split; [right; lra|]. unfold Rdiv. lra.
Qed.
Lemma atan_rl k xf x : rl k xf x -> k <= 5000 -> Rabs (atan xf - atan x) <= (k / 2 + / 100) * uu.
Proof.
  intros (K & E) Hk. pose proof uu_pos as U0. pose proof uu_small as U1. destruct (atan_mvt xf x) as (c & C & ->). pose proof (Rabs_pos x) as X. assert (KU : k * uu <= / 100000) by nra. assert (KU0 : 0 <= k * uu) by nra.
  assert (CC : Rabs x * (1 - k * uu) <= Rabs c). { assert (D : Rabs (c - x) <= k * uu * Rabs x) by (apply Rabs_le_inv in E; apply Rabs_le; lra). pose proof (Rabs_triang_inv x (x - c)) as T. replace (x - (x - c)) with c in T by ring. rewrite (Rabs_minus_sym x c) in T. lra. }
  unfold Rdiv at 1. rewrite Rabs_mult, Rabs_inv, (Rabs_pos_eq (1 + c ^ 2)) by (pose proof (pow2_ge_0 c); lra). rewrite <- (pow2_abs c).
  assert (P : 0 < 1 + Rabs c ^ 2) by (pose proof (pow2_ge_0 (Rabs c)); lra). apply Rmult_le_reg_r with (1 + Rabs c ^ 2); [exact P|]. rewrite Rmult_assoc, Rinv_l, Rmult_1_r by lra. apply Rle_trans with (1 := E).
  set (t := Rabs x) in *. set (w := Rabs c) in *. assert (W : (t * (1 - k * uu)) ^ 2 <= w ^ 2) by (apply pow_incr; split; [nra|exact CC]).
  apply Rle_trans with ((k / 2 + / 100) * uu * (1 + (t * (1 - k * uu)) ^ 2)); [|apply Rmult_le_compat_l; [nra|lra]].
  assert (Q : k * t <= (k / 2 + / 100) * (1 + (t * (1 - k * uu)) ^ 2)).
  { assert (Y : 2 * t * (1 - k * uu) <= 1 + (t * (1 - k * uu)) ^ 2) by (pose proof (pow2_ge_0 (1 - t * (1 - k * uu))); lra).
    apply Rle_trans with ((k / 2 + / 100) * (2 * t * (1 - k * uu))); [|apply Rmult_le_compat_l; lra].
    assert (Z : k * (k * uu) <= / 100) by nra. replace ((k / 2 + / 100) * (2 * t * (1 - k * uu))) with (t * ((k + / 50) * (1 - k * uu))) by field. rewrite (Rmult_comm k t). apply Rmult_le_compat_l; [exact X|]. lra. }
  replace (k * uu * t) with (uu * (k * t)) by ring. replace ((k / 2 + / 100) * uu * (1 + (t * (1 - k * uu)) ^ 2)) with (uu * ((k / 2 + / 100) * (1 + (t * (1 - k * uu)) ^ 2))) by ring. apply Rmult_le_compat_l; lra.
Qed.

Section Lib2.
Variables (lk : libm2) (M : libm2_ok lk).
Let m := l_base lk.
Lemma big_le j k : (j <= k)%nat -> 10 ^ j <= 10 ^ k. Proof. intros H. apply Rle_pow; [lra|exact H]. Qed.
Lemma inv_le j k : (j <= k)%nat -> / 10 ^ k <= / 10 ^ j. Proof. intros H. apply Rinv_le_contravar; [apply pow_lt; lra|now apply big_le]. Qed.
Definition fair (x : R) : Prop := x = 0 \/ / 10 ^ 99 <= Rabs x <= 10 ^ 99.
Lemma rl_lsq k xf x : rl k xf x -> double xf -> fair x -> k <= 4000 -> rl (2 * k + 2 + / 20) (l_sq m xf) (x ^ 2).
Proof.
  intros A D F Hk. assert (K := proj1 A). destruct F as [->|F].
  - apply rl_0 in A. subst xf. replace (0 ^ 2) with 0 by ring. destruct M as (_ & _ & _ & _ & _ & _ & _ & _ & Z & _). fold m in Z. rewrite Z. apply rl_of0. lra.
  - assert (B : rl 2 (l_sq m xf) (xf ^ 2)).
    { split; [lra|]. rewrite (Rabs_pos_eq (xf ^ 2)) by apply pow2_ge_0. destruct M as ((_ & _ & _ & Q & _) & _). apply Q; [exact D|]. destruct A as (_ & E). pose proof uu_pos as U0. pose proof uu_small as U1.
      assert (X : / 10 * Rabs x <= Rabs xf <= 10 * Rabs x).
      { assert (KU : k * uu <= / 100) by nra. pose proof (Rabs_pos x). assert (E2 : Rabs (xf - x) <= / 100 * Rabs x) by (apply Rle_trans with (1 := E); apply Rmult_le_compat_r; lra).
        split; [pose proof (Rabs_triang_inv x (x - xf)) as T; replace (x - (x - xf)) with xf in T by ring; rewrite (Rabs_minus_sym x xf) in T; lra|]. replace xf with ((xf - x) + x) by ring. apply Rle_trans with (1 := Rabs_triang _ _). lra. }
      replace (/ 10 ^ 100) with (/ 10 * / 10 ^ 99) by (rewrite <- Rinv_mult; f_equal; rewrite <- tech_pow_Rmult; ring). replace (10 ^ 100) with (10 * 10 ^ 99) by (rewrite <- tech_pow_Rmult; ring). set (s := / 10 ^ 99) in *. set (t := 10 ^ 99) in *. lra. }
    apply rl_weaken with (2 * k + / 100 + 2 + / 100); [|lra]. apply rl_trans with (xf ^ 2); [apply rl_sqx; [exact A|lra]|exact B|lra].
Qed.
(** hypot of two numbers whose squares are known to sum to h^2 up to kappa. *)
Lemma rl_lhyp k pf qf p q : rl k (pf ^ 2 + qf ^ 2) (p ^ 2 + q ^ 2) -> double pf -> double qf -> / 10 ^ 199 <= hypot p q <= 10 ^ 199 -> k <= 5000 -> rl (k / 2 + 4 + / 20) (l_hypot m pf qf) (hypot p q).
Proof.
  intros A D1 D2 H Hk. assert (K := proj1 A). pose proof (p10 199) as P0. assert (V : 0 < p ^ 2 + q ^ 2). { destruct (Rle_lt_or_eq_dec 0 (p ^ 2 + q ^ 2)) as [L|L]; [pose proof (pow2_ge_0 p); pose proof (pow2_ge_0 q); lra|exact L|]. unfold hypot in H. rewrite <- L, sqrt_0 in H. set (s := / 10 ^ 199) in *. lra. }
  assert (S : rl (k / 2 + / 100) (hypot pf qf) (hypot p q)).
  { unfold hypot in *. destruct A as (_ & E). pose proof uu_pos as U0. pose proof uu_small as U1. assert (S0 : 0 <= k * uu) by nra. assert (S1 : k * uu <= / 100000) by nra. set (v := p ^ 2 + q ^ 2) in *. set (vf := pf ^ 2 + qf ^ 2) in *. rewrite (Rabs_pos_eq v) in E by lra.
    assert (L : v * (1 - k * uu) <= vf) by (apply Rabs_le_inv in E; lra). assert (VF : 0 < vf) by nra. assert (SV : 0 < sqrt v) by (apply sqrt_lt_R0; exact V).
    assert (Q : sqrt v * (1 - k * uu) <= sqrt vf). { replace (1 - k * uu) with (sqrt ((1 - k * uu) ^ 2)) by (apply sqrt_pow2; lra). rewrite <- sqrt_mult by nra. apply sqrt_le_1_alt. nra. }
    assert (D : (sqrt vf - sqrt v) * (sqrt vf + sqrt v) = vf - v) by (pose proof (sqrt_sqrt vf ltac:(lra)); pose proof (sqrt_sqrt v ltac:(lra)); replace ((sqrt vf - sqrt v) * (sqrt vf + sqrt v)) with (sqrt vf * sqrt vf - sqrt v * sqrt v) by ring; lra).
    split; [lra|]. rewrite (Rabs_pos_eq (sqrt v)) by lra. assert (P : 0 < sqrt vf + sqrt v) by nra. apply Rmult_le_reg_r with (sqrt vf + sqrt v); [exact P|]. rewrite <- (Rabs_pos_eq (sqrt vf + sqrt v)) at 1 by lra. rewrite <- Rabs_mult, D. apply Rle_trans with (1 := E).
    apply Rle_trans with ((k / 2 + / 100) * uu * sqrt v * (sqrt v * (2 - k * uu))); [|apply Rmult_le_compat_l; [apply Rmult_le_pos; [nra|lra]|lra]].
    replace ((k / 2 + / 100) * uu * sqrt v * (sqrt v * (2 - k * uu))) with ((k / 2 + / 100) * uu * (2 - k * uu) * (sqrt v * sqrt v)) by ring. rewrite sqrt_sqrt by lra. apply Rmult_le_compat_r; [lra|].
    assert ((k / 2 + / 100) * (k * uu) <= 2 / 100) by nra. nra. }
  assert (B : rl 4 (l_hypot m pf qf) (hypot pf qf)).
  { split; [lra|]. rewrite (Rabs_pos_eq (hypot pf qf)) by apply hypot_nonneg. destruct M as ((_ & _ & Q & _) & _). apply Q; try assumption. destruct S as (_ & E). pose proof uu_pos as U0. pose proof uu_small as U1. rewrite (Rabs_pos_eq (hypot p q)) in E by apply hypot_nonneg.
    assert (X : / 10 * hypot p q <= hypot pf qf <= 10 * hypot p q). { assert (KU : (k / 2 + / 100) * uu <= / 100) by nra. pose proof (hypot_nonneg p q). assert (E2 : Rabs (hypot pf qf - hypot p q) <= / 100 * hypot p q) by (apply Rle_trans with (1 := E); apply Rmult_le_compat_r; lra). apply Rabs_le_inv in E2. lra. }
    replace (/ 10 ^ 200) with (/ 10 * / 10 ^ 199) by (rewrite <- Rinv_mult; f_equal; rewrite <- tech_pow_Rmult; ring). replace (10 ^ 200) with (10 * 10 ^ 199) by (rewrite <- tech_pow_Rmult; ring). set (s := / 10 ^ 199) in *. set (t := 10 ^ 199) in *. lra. }
  apply rl_weaken with (k / 2 + / 100 + 4 + / 100); [|lra]. now apply rl_trans with (hypot pf qf); [..|lra].
Qed.
End Lib2.
