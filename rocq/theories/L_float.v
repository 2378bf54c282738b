(** Error calculus for binary64 expressions. *)
From Coq Require Import Reals ZArith Lra Lia Psatz.
From Flocq Require Import Core Relative.
From Verif Require Import PyMath M_ellipsoid M_float M_floatenu Spec_float P_float.
Open Scope R_scope.

#[local] Instance prec53 : Prec_gt_0 53 := eq_refl.
#[local] Instance vexp : Valid_exp fexp64 := FLT_exp_valid (-1074) 53.
#[local] Instance mexp : Monotone_exp fexp64 := FLT_exp_monotone (-1074) 53.
Definition tny : R := bpow radix2 (-1000).
(** [xf] approximates [x], of size at most [B], within k half-ulps of B. *)
Definition ap (k B xf x : R) : Prop := 0 <= k <= 10000 /\ Rabs x <= B /\ Rabs (xf - x) <= k * uu * B.

Lemma uu_pos : 0 < uu. Proof. unfold uu. lra. Qed.
Lemma uu_small : uu <= / 1000000000000000. Proof. unfold uu. lra. Qed.
Lemma tny_pos : 0 < tny. Proof. apply bpow_gt_0. Qed.
Lemma tny_le_1 : tny <= 1 / 4. Proof. unfold tny. replace (1 / 4) with (bpow radix2 (-2)) by (cbn; lra). apply bpow_le. lia. Qed.

Lemma rnd_err x B : Rabs x <= B -> tny <= B -> Rabs (rnd x - x) <= uu * B.
Proof.
  intros Hx HB. destruct (Rle_lt_dec (bpow radix2 (-1022)) (Rabs x)) as [L|L].
  - pose proof (relative_error_N_FLT radix2 (-1074) 53 eq_refl (fun x => negb (Z.even x)) x) as E. change (-1074 + 53 - 1)%Z with (-1022)%Z in E. specialize (E L).
    replace (/ 2 * bpow radix2 (- (53) + 1)) with uu in E by (unfold uu; cbn; lra). fold (rnd x) in E. pose proof uu_pos. change (Rabs (rnd x - x) <= uu * Rabs x) in E. nra.
  - pose proof (error_le_half_ulp radix2 fexp64 (fun x => negb (Z.even x)) x) as E. change (Rabs (rnd x - x) <= / 2 * ulp radix2 fexp64 x) in E.
    apply Rle_trans with (1 := E). assert (U : ulp radix2 fexp64 x <= bpow radix2 (-1074)).
    { apply Rle_trans with (ulp radix2 fexp64 (bpow radix2 (-1022))).
      - apply (ulp_le radix2 fexp64). rewrite (Rabs_pos_eq (bpow radix2 (-1022))) by apply bpow_ge_0. lra.
      - rewrite ulp_bpow. apply bpow_le. unfold fexp64, FLT_exp. lia. }
    assert (T : bpow radix2 (-1074) <= uu * tny).
    { replace uu with (bpow radix2 (-53)) by (unfold uu; cbn; lra). unfold tny. rewrite <- bpow_plus. apply bpow_le. lia. }
    pose proof (bpow_ge_0 radix2 (-1074)). pose proof uu_pos. nra.
Qed.
Lemma ap_exact x B : Rabs x <= B -> ap 0 B x x.
Proof. intros H. repeat split; try lra. rewrite Rminus_diag_eq, Rabs_R0 by ring. lra. Qed.
Lemma ap_weaken k k' B B' xf x : ap k B xf x -> k <= k' <= 10000 -> B <= B' -> ap k' B' xf x.
Proof.
  intros (K & H1 & H2) Hk HB. pose proof (Rabs_pos x). pose proof uu_pos. repeat split; try lra.
  apply Rle_trans with (1 := H2). rewrite !Rmult_assoc. apply Rmult_le_compat; try lra. - nra. - nra.
Qed.
Lemma ap_opp k B xf x : ap k B xf x -> ap k B (- xf) (- x).
Proof. intros (K & H1 & H2). repeat split; try lra. - now rewrite Rabs_Ropp. - replace (- xf - - x) with (- (xf - x)) by ring. now rewrite Rabs_Ropp. Qed.
Lemma ap_rnd k B xf x : ap k B xf x -> tny <= B -> k + 1 + / 1000 <= 10000 -> ap (k + 1 + / 1000) B (rnd xf) x.
Proof.
  intros (K & H1 & H2) HB Hk. repeat split; try lra. pose proof uu_pos. pose proof uu_small. pose proof tny_pos.
  assert (S : Rabs xf <= B * (1 + k * uu)). { replace xf with ((xf - x) + x) by ring. apply Rle_trans with (1 := Rabs_triang _ _). nra. }
  assert (S2 : B <= B * (1 + k * uu)) by (assert (0 <= k * uu) by nra; nra).
  pose proof (rnd_err xf _ S ltac:(lra)) as E. replace (rnd xf - x) with ((rnd xf - xf) + (xf - x)) by ring. apply Rle_trans with (1 := Rabs_triang _ _).
  assert (k * uu <= / 1000) by nra. assert (uu * (B * (1 + k * uu)) <= uu * (B * (1 + / 1000))) by (apply Rmult_le_compat_l; [lra|apply Rmult_le_compat_l; lra]). nra.
Qed.
Lemma ap_mul k1 k2 B1 B2 xf x yf y : ap k1 B1 xf x -> ap k2 B2 yf y -> tny <= B1 * B2 -> k1 + k2 + 1 + / 100 <= 10000 ->
  ap (k1 + k2 + 1 + / 100) (B1 * B2) (fl_mul xf yf) (x * y).
Proof.
  intros (K1 & H1 & E1) (K2 & H2 & E2) HB Hk. pose proof uu_pos. pose proof uu_small. pose proof (Rabs_pos x). pose proof (Rabs_pos y).
  apply ap_weaken with (k := (k1 + k2 + / 1000) + 1 + / 1000) (B := B1 * B2); [|lra|lra].
  apply ap_rnd; [|exact HB|lra]. repeat split; [lra|lra| |].
  - rewrite Rabs_mult. apply Rmult_le_compat; lra.
  - replace (xf * yf - x * y) with ((xf - x) * (yf - y) + (xf - x) * y + x * (yf - y)) by ring.
    apply Rle_trans with (1 := Rabs_triang _ _). apply Rle_trans with (1 := Rplus_le_compat_r _ _ _ (Rabs_triang _ _)). rewrite !Rabs_mult.
    assert (A1 : Rabs (xf - x) * Rabs (yf - y) <= (k1 * uu * B1) * (k2 * uu * B2)) by (apply Rmult_le_compat; try apply Rabs_pos; lra).
    assert (A2 : Rabs (xf - x) * Rabs y <= (k1 * uu * B1) * B2) by (apply Rmult_le_compat; try apply Rabs_pos; lra).
    assert (A3 : Rabs x * Rabs (yf - y) <= B1 * (k2 * uu * B2)) by (apply Rmult_le_compat; try apply Rabs_pos; lra).
    assert (Q : k1 * uu * k2 <= / 1000). { assert (k1 * k2 <= 100000000) by nra. assert (0 <= k1 * k2) by nra. nra. }
    assert (P : 0 <= uu * (B1 * B2)) by (assert (0 <= B1 * B2) by nra; nra).
    assert ((k1 * uu * k2) * (uu * (B1 * B2)) <= / 1000 * (uu * (B1 * B2))) by (apply Rmult_le_compat_r; lra). nra.
Qed.
Lemma ap_add k k1 k2 B1 B2 xf x yf y : ap k1 B1 xf x -> ap k2 B2 yf y -> k1 <= k -> k2 <= k -> tny <= B1 + B2 -> k + 1 + / 1000 <= 10000 ->
  ap (k + 1 + / 1000) (B1 + B2) (fl_add xf yf) (x + y).
Proof.
  intros A1 A2 H1 H2 HB Hk. assert (K : 0 <= k) by (destruct A1; lra). apply ap_rnd; [|exact HB|lra].
  apply (ap_weaken k1 k B1 B1) in A1; [|lra|lra]. apply (ap_weaken k2 k B2 B2) in A2; [|lra|lra].
  destruct A1 as (_ & X1 & E1). destruct A2 as (_ & X2 & E2). repeat split; try lra.
  - apply Rle_trans with (1 := Rabs_triang _ _). lra.
  - replace (xf + yf - (x + y)) with ((xf - x) + (yf - y)) by ring. apply Rle_trans with (1 := Rabs_triang _ _). lra.
Qed.
Lemma ap_sub k k1 k2 B1 B2 xf x yf y : ap k1 B1 xf x -> ap k2 B2 yf y -> k1 <= k -> k2 <= k -> tny <= B1 + B2 -> k + 1 + / 1000 <= 10000 ->
  ap (k + 1 + / 1000) (B1 + B2) (fl_sub xf yf) (x - y).
Proof. intros A1 A2 H1 H2 HB Hk. exact (ap_add k k1 k2 B1 B2 xf x (- yf) (- y) A1 (ap_opp _ _ _ _ A2) H1 H2 HB Hk). Qed.

(** Relative version, for the quotients. *)
Definition rl (k xf x : R) : Prop := 0 <= k <= 10000 /\ Rabs (xf - x) <= k * uu * Rabs x.
Lemma rl_ap k B xf x : rl k xf x -> Rabs x <= B -> ap k B xf x.
Proof. intros (K & E) H. repeat split; try lra. pose proof uu_pos. apply Rle_trans with (1 := E). apply Rmult_le_compat_l; nra. Qed.
Lemma ap_rl k B c xf x : ap k B xf x -> 0 < c -> c * B <= Rabs x -> k / c <= 10000 -> rl (k / c) xf x.
Proof.
  intros (K & H & E) Hc HB Hk. assert (0 <= k / c) by (apply Rmult_le_pos; [lra|left; now apply Rinv_0_lt_compat]). repeat split; try lra.
  apply Rle_trans with (1 := E). replace (k * uu * B) with (k / c * uu * (c * B)) by (field; lra). pose proof uu_pos. apply Rmult_le_compat_l; [nra|lra].
Qed.
Lemma rl_weaken k k' xf x : rl k xf x -> k <= k' <= 10000 -> rl k' xf x.
Proof. intros (K & E) H. repeat split; try lra. apply Rle_trans with (1 := E). apply Rmult_le_compat_r; [apply Rabs_pos|]. pose proof uu_pos. nra. Qed.
Lemma rl_rnd k xf x : rl k xf x -> tny <= Rabs x -> k + 1 + / 1000 <= 10000 -> rl (k + 1 + / 1000) (rnd xf) x.
Proof.
  intros (K & E) H Hk. assert (A : ap k (Rabs x) xf x) by (repeat split; lra). apply ap_rnd in A; [|exact H|exact Hk]. destruct A as (A & _ & A3). split; assumption.
Qed.
Lemma rl_exact x : rl 0 x x.
Proof. split; [lra|]. rewrite Rminus_diag_eq, Rabs_R0 by ring. lra. Qed.
Lemma rl_mul k1 k2 xf x yf y : rl k1 xf x -> rl k2 yf y -> tny <= Rabs (x * y) -> k1 + k2 + 1 + / 100 <= 10000 ->
  rl (k1 + k2 + 1 + / 100) (fl_mul xf yf) (x * y).
Proof.
  intros (K1 & E1) (K2 & E2) H Hk. assert (A : ap (k1 + k2 + 1 + / 100) (Rabs x * Rabs y) (fl_mul xf yf) (x * y)).
  { apply ap_mul; [repeat split; lra|repeat split; lra|now rewrite <- Rabs_mult|exact Hk]. }
  destruct A as (A1 & _ & A2). rewrite <- Rabs_mult in A2. split; assumption.
Qed.
Lemma rl_inv k xf x : rl k xf x -> x <> 0 -> k + / 1000 <= 10000 -> rl (k + / 1000) (/ xf) (/ x) /\ xf <> 0.
Proof.
  intros (K & E) H Hk. pose proof uu_pos. pose proof uu_small. pose proof (Rabs_pos_lt x H) as P. assert (S : k * uu <= / 10000000) by nra. assert (S0 : 0 <= k * uu) by nra.
  assert (L : Rabs x * (1 - k * uu) <= Rabs xf). { assert (T := Rabs_triang_inv x (x - xf)). replace (x - (x - xf)) with xf in T by ring. rewrite (Rabs_minus_sym x xf) in T. nra. }
  assert (N : xf <> 0). { intros ->. rewrite Rabs_R0 in L. nra. }
  split; [|exact N]. split; [lra|]. replace (/ xf - / x) with (- (xf - x) * / (xf * x)) by (field; split; assumption). rewrite Rabs_mult, Rabs_Ropp, (Rabs_inv (xf * x)), Rabs_mult, (Rabs_inv x).
  pose proof (Rabs_pos_lt xf N) as Q. apply Rle_trans with (k * uu * Rabs x * / (Rabs xf * Rabs x)); [apply Rmult_le_compat_r; [left; apply Rinv_0_lt_compat; nra|exact E]|].
  replace (k * uu * Rabs x * / (Rabs xf * Rabs x)) with (k * uu / Rabs xf) by (field; lra). apply Rmult_le_reg_r with (Rabs xf); [exact Q|]. replace (k * uu / Rabs xf * Rabs xf) with (k * uu) by (field; lra).
  apply Rle_trans with ((k + / 1000) * uu * / Rabs x * (Rabs x * (1 - k * uu))); [|apply Rmult_le_compat_l; [|exact L]; apply Rmult_le_pos; [nra|left; now apply Rinv_0_lt_compat]].
  replace ((k + / 1000) * uu * / Rabs x * (Rabs x * (1 - k * uu))) with ((k + / 1000) * uu * (1 - k * uu)) by (field; lra).
  assert ((k + / 1000) * (k * uu) <= / 1000) by nra. nra.
Qed.
Lemma rl_div k1 k2 xf x yf y : rl k1 xf x -> rl k2 yf y -> y <> 0 -> tny <= Rabs (x / y) -> k1 + k2 + 1 + / 50 <= 10000 ->
  rl (k1 + k2 + 1 + / 50) (fl_div xf yf) (x / y).
Proof.
  intros A1 A2 N H Hk. assert (P1 := proj1 A1). assert (P2 := proj1 A2). destruct (rl_inv _ _ _ A2 N ltac:(lra)) as [I _]. apply rl_weaken with (k1 + (k2 + / 1000) + 1 + / 100); [|lra].
  exact (rl_mul k1 (k2 + / 1000) xf x (/ yf) (/ y) A1 I H ltac:(lra)).
Qed.
