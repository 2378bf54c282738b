(** Property C99, continued: eci2ecef and ecef2eci in binary64. *)
From Coq Require Import Reals ZArith Lra Lia Psatz.
From Flocq Require Import Core.
From Verif Require Import PyMath M_time M_frames M_earth M_eci M_sidereal M_float M_floatenu M_floattime M_floatsid M_floateci Spec Spec_time Spec_float P_float L_float L_floathav L_floatpi P_time P_roundtime P_roundsid P_roundsid2.
From Verif Require L_earth L_eci L_frames L_PyMath L_short9 L_time P_rounding P_eci.
Open Scope R_scope.
#[local] Instance prec53 : Prec_gt_0 53 := eq_refl.
#[local] Instance vexp : Valid_exp fexp64 := FLT_exp_valid (-1074) 53.

(** Assumed of Python's sum of three doubles: within 8 half-ulps of the sum of the absolute values, or of 1 if more.  Both algorithms that CPython has used qualify ([plain_sum_ok], [compensated_sum_ok]). *)
Definition sum_ok (sum : R -> R -> R -> R) : Prop := forall a b c, double a -> double b -> double c -> Rabs a + Rabs b + Rabs c <= 10 ^ 15 ->
  Rabs (sum a b c - (a + b + c)) <= 8 * uu * Rmax 1 (Rabs a + Rabs b + Rabs c).
Lemma plain_sum_ok : sum_ok (fun a b c => fl_add (fl_add (fl_add 0 a) b) c).
Proof.
  intros a b c Da Db Dc _. assert (Z : fl_add 0 a = a) by (unfold fl_add; rewrite Rplus_0_l; apply rnd_id; exact Da). rewrite Z. pose proof (Rmax_l 1 (Rabs a + Rabs b + Rabs c)) as M1. pose proof (Rmax_r 1 (Rabs a + Rabs b + Rabs c)) as M2. set (W := Rmax _ _) in *. clearbody W.
  pose proof uu_pos as U. pose proof uu_small as US. pose proof (Rabs_pos a). pose proof (Rabs_pos b). pose proof (Rabs_pos c).
  assert (B1 : Rabs (a + b) <= W) by (apply Rle_trans with (1 := Rabs_triang _ _); lra).
  assert (B3 : Rabs (a + b + c) <= W) by (apply Rle_trans with (1 := Rabs_triang _ _); pose proof (Rabs_triang a b); lra).
  assert (TW : tny <= W) by (pose proof tny_le_1; lra). pose proof (rnd_err (a + b) W B1 TW) as E1. change (rnd (a + b)) with (fl_add a b) in E1. set (f := fl_add a b) in *. clearbody f.
  assert (UW : uu * W <= / 1000000 * W) by (apply Rmult_le_compat_r; lra). assert (UUW : uu * (1.1 * W) = 1.1 * (uu * W)) by ring.
  assert (B2 : Rabs (f + c) <= 1.1 * W) by (replace (f + c) with ((f - (a + b)) + (a + b + c)) by ring; apply Rle_trans with (1 := Rabs_triang _ _); lra).
  pose proof (rnd_err (f + c) (1.1 * W) B2 ltac:(lra)) as E2. unfold fl_add. apply Rabs_le_inv in E1, E2. apply Rabs_le. lra.
Qed.

(** Python 3.12 and later (Objects/floatobject.c, Python/bltinmodule.c: cs_add, cs_to_double): a running sum and a running correction. *)
Definition cs_add (total : R * R) (x : R) : R * R :=
  let '(hi, lo) := total in
  let t := fl_add hi x in
  (t, fl_add lo (if Rle_dec (Rabs x) (Rabs hi) then fl_add (fl_sub hi t) x else fl_add (fl_sub x t) hi)).
Definition compensated_sum (a b c : R) : R := let '(hi, lo) := cs_add (cs_add (cs_add (0, 0) a) b) c in fl_add hi lo.
Lemma cs_corr hi x W : 1 <= W -> Rabs hi <= 1.05 * W -> Rabs x <= W -> Rabs (hi + x) <= 1.05 * W ->
  Rabs ((if Rle_dec (Rabs x) (Rabs hi) then fl_add (fl_sub hi (fl_add hi x)) x else fl_add (fl_sub x (fl_add hi x)) hi) - (hi + x - fl_add hi x)) <= 1.2 * (uu * W) /\ Rabs (fl_add hi x - (hi + x)) <= 1.05 * (uu * W).
Proof.
  intros HW H1 H2 H3. pose proof uu_pos as U. pose proof uu_small as US. pose proof tny_le_1 as TN. assert (TM : tny <= / 1000) by (apply tny_1; lra). assert (UW : uu * W <= / 1000000 * W) by (apply Rmult_le_compat_r; lra).
  pose proof (rnd_err (hi + x) (1.05 * W) H3 ltac:(lra)) as E. change (rnd (hi + x)) with (fl_add hi x) in E. set (t := fl_add hi x) in *. clearbody t. replace (uu * (1.05 * W)) with (1.05 * (uu * W)) in E by ring. split; [|exact E].
  assert (G : forall p q, Rabs p <= 1.05 * W -> Rabs q <= 1.05 * W -> p + q = hi + x -> Rabs (fl_add (fl_sub p t) q - (hi + x - t)) <= 1.2 * (uu * W)).
  { intros p q Hp Hq PQ. assert (B : Rabs (p - t) <= 1.1 * W) by (replace (p - t) with (- ((t - (hi + x)) + q)) by lra; rewrite Rabs_Ropp; apply Rle_trans with (1 := Rabs_triang _ _); lra).
    pose proof (rnd_err (p - t) (1.1 * W) B ltac:(lra)) as E1. change (rnd (p - t)) with (fl_sub p t) in E1. set (f := fl_sub p t) in *. clearbody f. replace (uu * (1.1 * W)) with (1.1 * (uu * W)) in E1 by ring.
    assert (B2 : Rabs (f + q) <= / 1000 * W) by (apply Rabs_le_inv in E, E1; apply Rabs_le; lra). pose proof (rnd_err (f + q) (/ 1000 * W) B2 ltac:(lra)) as E2. replace (uu * (/ 1000 * W)) with (/ 1000 * (uu * W)) in E2 by ring. unfold fl_add. apply Rabs_le_inv in E, E1, E2. apply Rabs_le. lra. }
  destruct (Rle_dec _ _); apply G; lra.
Qed.
Lemma compensated_sum_ok : sum_ok compensated_sum.
Proof.
  intros a b c _ _ _ _. pose proof (Rmax_l 1 (Rabs a + Rabs b + Rabs c)) as M1. pose proof (Rmax_r 1 (Rabs a + Rabs b + Rabs c)) as M2. set (W := Rmax _ _) in *. clearbody W.
  pose proof uu_pos as U. pose proof uu_small as US. assert (TM : tny <= / 1000) by (apply tny_1; lra). assert (UW : 0 < uu * W <= / 1000000 * W) by (split; [apply Rmult_lt_0_compat; lra|apply Rmult_le_compat_r; lra]).
  pose proof (Rabs_pos a) as Pa. pose proof (Rabs_pos b) as Pb. pose proof (Rabs_pos c) as Pc. pose proof (Rabs_triang a b) as Tab. pose proof (Rabs_triang (a + b) c) as Tabc.
  unfold compensated_sum, cs_add.
  destruct (cs_corr 0 a W M1 ltac:(rewrite Rabs_R0; lra) ltac:(lra) ltac:(rewrite Rplus_0_l; lra)) as [G1 H1]. set (t1 := fl_add 0 a) in *. set (g1 := if Rle_dec (Rabs a) (Rabs 0) then _ else _) in *. clearbody g1 t1.
  assert (B1 : Rabs t1 <= 1.05 * W) by (apply Rle_trans with (Rabs (t1 - (0 + a)) + Rabs a); [replace t1 with ((t1 - (0 + a)) + a) at 1 by ring; apply Rabs_triang|lra]).
  assert (B1' : Rabs (t1 + b) <= 1.05 * W) by (replace (t1 + b) with ((t1 - (0 + a)) + (a + b)) by ring; apply Rle_trans with (1 := Rabs_triang _ _); lra).
  destruct (cs_corr t1 b W M1 B1 ltac:(lra) B1') as [G2 H2]. set (t2 := fl_add t1 b) in *. set (g2 := if Rle_dec (Rabs b) (Rabs t1) then _ else _) in *. clearbody g2 t2.
  assert (B2 : Rabs t2 <= 1.05 * W) by (replace t2 with (((t2 - (t1 + b)) + (t1 - (0 + a))) + (a + b)) by ring; apply Rle_trans with (1 := Rabs_triang _ _); pose proof (Rabs_triang (t2 - (t1 + b)) (t1 - (0 + a))); lra).
  assert (B2' : Rabs (t2 + c) <= 1.05 * W) by (replace (t2 + c) with (((t2 - (t1 + b)) + (t1 - (0 + a))) + (a + b + c)) by ring; apply Rle_trans with (1 := Rabs_triang _ _); pose proof (Rabs_triang (t2 - (t1 + b)) (t1 - (0 + a))); lra).
  destruct (cs_corr t2 c W M1 B2 ltac:(lra) B2') as [G3 H3]. set (t3 := fl_add t2 c) in *. set (g3 := if Rle_dec (Rabs c) (Rabs t2) then _ else _) in *. clearbody g3 t3.
  apply Rabs_le_inv in G1, G2, G3, H1, H2, H3.
  assert (K : forall v, Rabs v <= / 1000 * W -> Rabs (rnd v - v) <= / 1000 * (uu * W)) by (intros v Hv; pose proof (rnd_err v (/ 1000 * W) Hv ltac:(lra)); lra).
  pose proof (K (0 + g1) ltac:(apply Rabs_le; lra)) as L1. change (rnd (0 + g1)) with (fl_add 0 g1) in L1. set (l1 := fl_add 0 g1) in *. clearbody l1. apply Rabs_le_inv in L1.
  pose proof (K (l1 + g2) ltac:(apply Rabs_le; lra)) as L2. change (rnd (l1 + g2)) with (fl_add l1 g2) in L2. set (l2 := fl_add l1 g2) in *. clearbody l2. apply Rabs_le_inv in L2.
  pose proof (K (l2 + g3) ltac:(apply Rabs_le; lra)) as L3. change (rnd (l2 + g3)) with (fl_add l2 g3) in L3. set (l3 := fl_add l2 g3) in *. clearbody l3. apply Rabs_le_inv in L3.
  assert (B3 : Rabs (t3 + l3) <= 1.1 * W) by (apply Rabs_le; apply Rabs_le_inv in B2'; lra). pose proof (rnd_err (t3 + l3) (1.1 * W) B3 ltac:(lra)) as Q. replace (uu * (1.1 * W)) with (1.1 * (uu * W)) in Q by ring. unfold fl_add. apply Rabs_le_inv in Q. apply Rabs_le. lra.
Qed.

(** Entrywise closeness of matrices. *)
Definition mnear (e : R) (A B : mat3) : Prop := forall i j, Rabs (m_at A i j - m_at B i j) <= e.
Lemma mnear_weaken e e' A B : mnear e A B -> e <= e' -> mnear e' A B.
Proof. intros H L i j. specialize (H i j). lra. Qed.
Lemma row_bound a b c : a * a + b * b + c * c = 1 -> Rabs a <= 1 /\ Rabs b <= 1 /\ Rabs c <= 1 /\ Rabs a + Rabs b + Rabs c <= 1.7321.
Proof.
  intros H. assert (Ea : Rabs a * Rabs a = a * a) by (rewrite <- Rabs_mult; apply Rabs_pos_eq; nra). assert (Eb : Rabs b * Rabs b = b * b) by (rewrite <- Rabs_mult; apply Rabs_pos_eq; nra). assert (Ec : Rabs c * Rabs c = c * c) by (rewrite <- Rabs_mult; apply Rabs_pos_eq; nra).
  pose proof (Rabs_pos a). pose proof (Rabs_pos b). pose proof (Rabs_pos c). set (x := Rabs a) in *. set (y := Rabs b) in *. set (z := Rabs c) in *. clearbody x y z. assert (Q : (x + y + z) * (x + y + z) <= 3) by (pose proof (Rle_0_sqr (x - y)); pose proof (Rle_0_sqr (x - z)); pose proof (Rle_0_sqr (y - z)); unfold Rsqr in *; nra). repeat split; nra.
Qed.
Lemma rot_row A i : is_rotation A -> Rabs (m_at A i 0) <= 1 /\ Rabs (m_at A i 1) <= 1 /\ Rabs (m_at A i 2) <= 1 /\ Rabs (m_at A i 0) + Rabs (m_at A i 1) + Rabs (m_at A i 2) <= 1.7321.
Proof.
  intros H. apply row_bound. destruct A as [[[[a b] c] [[d e] f]] [[g h] k]]. cbv [is_rotation vdot] in H. destruct H as (H1 & H2 & H3 & _). destruct i as [|[|i]]; cbv [m_at v_at]; lra.
Qed.
Lemma tr_at A i j : m_at (transpose3 A) i j = m_at A j i.
Proof. destruct A as [[[[a b] c] [[d e] f]] [[g h] k]]. destruct i as [|[|i]]; destruct j as [|[|j]]; reflexivity. Qed.
Lemma rot_col A j : is_rotation A -> Rabs (m_at A 0 j) <= 1 /\ Rabs (m_at A 1 j) <= 1 /\ Rabs (m_at A 2 j) <= 1 /\ Rabs (m_at A 0 j) + Rabs (m_at A 1 j) + Rabs (m_at A 2 j) <= 1.7321.
Proof. intros H. pose proof (rot_row _ j (L_frames.transpose_rotation A H)) as Q. rewrite !tr_at in Q. exact Q. Qed.
Lemma mm_at A B i j : m_at (eo_matmul3 A B) i j = m_at A i 0 * m_at B 0 j + m_at A i 1 * m_at B 1 j + m_at A i 2 * m_at B 2 j.
Proof. destruct A as [[[[a b] c] [[d e] f]] [[g h] k]]. destruct B as [[[[a' b'] c'] [[d' e'] f']] [[g' h'] k']]. destruct i as [|[|i]]; destruct j as [|[|j]]; reflexivity. Qed.
Lemma fmm_at sum A B i j : m_at (fl_matmul3 sum A B) i j = sum (fl_mul (m_at A i 0) (m_at B 0 j)) (fl_mul (m_at A i 1) (m_at B 1 j)) (fl_mul (m_at A i 2) (m_at B 2 j)).
Proof. destruct A as [[[[a b] c] [[d e] f]] [[g h] k]]. destruct B as [[[[a' b'] c'] [[d' e'] f']] [[g' h'] k']]. destruct i as [|[|i]]; destruct j as [|[|j]]; reflexivity. Qed.
(** One product of two approximate factors. *)
Lemma prod1 xf x yf y a b : Rabs (xf - x) <= a -> Rabs (yf - y) <= b -> Rabs x <= 1 -> Rabs y <= 1 -> a <= / 1000000 -> b <= / 1000000 ->
  Rabs (fl_mul xf yf - x * y) <= Rabs x * b + a * Rabs y + a * b + 1.01 * uu /\ Rabs (fl_mul xf yf) <= 1.01.
Proof.
  intros Ha Hb Hx Hy La Lb. pose proof (Rabs_pos (xf - x)). pose proof (Rabs_pos (yf - y)). pose proof uu_pos as U. pose proof uu_small as US.
  assert (E : Rabs (xf * yf - x * y) <= Rabs x * b + a * Rabs y + a * b).
  { replace (xf * yf - x * y) with (x * (yf - y) + (xf - x) * y + (xf - x) * (yf - y)) by ring. apply Rle_trans with (1 := Rabs_triang _ _). apply Rplus_le_compat; [apply Rle_trans with (1 := Rabs_triang _ _); apply Rplus_le_compat|]; rewrite Rabs_mult; apply Rmult_le_compat; try apply Rabs_pos; lra. }
  assert (S1 : Rabs x * b <= 1 * b) by (apply Rmult_le_compat_r; lra). assert (S2 : a * Rabs y <= a * 1) by (apply Rmult_le_compat_l; lra). assert (S3 : a * b <= a * 1) by (apply Rmult_le_compat_l; lra).
  assert (B0 : Rabs (x * y) <= 1) by (rewrite Rabs_mult; replace 1 with (1 * 1) by ring; apply Rmult_le_compat; try apply Rabs_pos; lra).
  assert (B1 : Rabs (xf * yf) <= 1.0001) by (replace (xf * yf) with ((xf * yf - x * y) + x * y) by ring; apply Rle_trans with (1 := Rabs_triang _ _); lra).
  pose proof (rnd_err (xf * yf) 1.01 ltac:(lra) ltac:(pose proof tny_le_1; lra)) as Q. change (rnd (xf * yf)) with (fl_mul xf yf) in Q. split.
  - replace (fl_mul xf yf - x * y) with ((fl_mul xf yf - xf * yf) + (xf * yf - x * y)) by ring. apply Rle_trans with (1 := Rabs_triang _ _). lra.
  - replace (fl_mul xf yf) with ((fl_mul xf yf - xf * yf) + xf * yf) by ring. apply Rle_trans with (1 := Rabs_triang _ _). lra.
Qed.
Lemma matmul_near sum A Af B Bf a b : sum_ok sum -> is_rotation A -> is_rotation B -> mnear a Af A -> mnear b Bf B -> a <= / 1000000 -> b <= / 1000000 ->
  mnear (1.7322 * (a + b) + 28 * uu) (fl_matmul3 sum Af Bf) (eo_matmul3 A B).
Proof.
  intros S RA RB HA HB La Lb i j. rewrite mm_at, fmm_at. destruct (rot_row A i RA) as (A0 & A1 & A2 & SA). destruct (rot_col B j RB) as (B0 & B1 & B2 & SB).
  destruct (prod1 _ _ _ _ a b (HA i 0%nat) (HB 0%nat j) A0 B0 La Lb) as [E0 F0]. destruct (prod1 _ _ _ _ a b (HA i 1%nat) (HB 1%nat j) A1 B1 La Lb) as [E1 F1]. destruct (prod1 _ _ _ _ a b (HA i 2%nat) (HB 2%nat j) A2 B2 La Lb) as [E2 F2].
  pose proof (Rabs_pos (m_at Af i 0 - m_at A i 0)) as P0. pose proof (HA i 0%nat) as P1. pose proof (Rabs_pos (m_at Bf 0 j - m_at B 0 j)) as P2. pose proof (HB 0%nat j) as P3. pose proof uu_pos as U.
  assert (D0 : double (fl_mul (m_at Af i 0) (m_at Bf 0 j))) by apply rnd_double. assert (D1 : double (fl_mul (m_at Af i 1) (m_at Bf 1 j))) by apply rnd_double. assert (D2 : double (fl_mul (m_at Af i 2) (m_at Bf 2 j))) by apply rnd_double.
  set (p0 := fl_mul (m_at Af i 0) _) in *. set (p1 := fl_mul (m_at Af i 1) _) in *. set (p2 := fl_mul (m_at Af i 2) _) in *. clearbody p0 p1 p2.
  set (x0 := m_at A i 0) in *. set (x1 := m_at A i 1) in *. set (x2 := m_at A i 2) in *. set (y0 := m_at B 0 j) in *. set (y1 := m_at B 1 j) in *. set (y2 := m_at B 2 j) in *. clearbody x0 x1 x2 y0 y1 y2.
  assert (a0 : 0 <= a) by lra. assert (b0 : 0 <= b) by lra. clear P0 P1 P2 P3.
  pose proof (S p0 p1 p2 D0 D1 D2 ltac:(lra)) as Q. assert (MX : Rmax 1 (Rabs p0 + Rabs p1 + Rabs p2) <= 3.03) by (apply Rmax_lub; lra).
  assert (QB : 8 * uu * Rmax 1 (Rabs p0 + Rabs p1 + Rabs p2) <= 8 * uu * 3.03) by (apply Rmult_le_compat_l; lra).
  assert (XB : (Rabs x0 + Rabs x1 + Rabs x2) * b <= 1.7321 * b) by (apply Rmult_le_compat_r; lra). assert (YA : a * (Rabs y0 + Rabs y1 + Rabs y2) <= a * 1.7321) by (apply Rmult_le_compat_l; lra). assert (AB : a * b <= a * / 1000000) by (apply Rmult_le_compat_l; lra).
  replace (sum p0 p1 p2 - (x0 * y0 + x1 * y1 + x2 * y2)) with ((sum p0 p1 p2 - (p0 + p1 + p2)) + ((p0 - x0 * y0) + (p1 - x1 * y1) + (p2 - x2 * y2))) by ring.
  apply Rle_trans with (1 := Rabs_triang _ _). pose proof (Rabs_triang (p0 - x0 * y0 + (p1 - x1 * y1)) (p2 - x2 * y2)) as T1. pose proof (Rabs_triang (p0 - x0 * y0) (p1 - x1 * y1)) as T2. lra.
Qed.
(** The elementary rotations. *)
Lemma rots_near m xf x e : trig_ok m -> double xf -> Rabs xf <= 13 -> near e xf x -> 0 <= e ->
  mnear (e + 4 * uu) (fl_rotation_x m xf) (eo_rotation_x x) /\ mnear (e + 4 * uu) (fl_rotation_y m xf) (eo_rotation_y x) /\ mnear (e + 4 * uu) (fl_rotation_z m xf) (eo_rotation_z x).
Proof.
  intros M D B [k K] H0. destruct (M xf D B) as [M1 M2]. pose proof (sin_near xf x k) as S. pose proof (cos_near xf x k) as C. pose proof uu_pos as U. replace (xf - x - 2 * PI * IZR k) with (xf - (x + IZR k * (2 * PI))) in K by ring.
  assert (ES : Rabs (l_sin m xf - sin x) <= e + 4 * uu) by (replace (l_sin m xf - sin x) with ((l_sin m xf - sin xf) + (sin xf - sin x)) by ring; apply Rle_trans with (1 := Rabs_triang _ _); lra).
  assert (EC : Rabs (l_cos m xf - cos x) <= e + 4 * uu) by (replace (l_cos m xf - cos x) with ((l_cos m xf - cos xf) + (cos xf - cos x)) by ring; apply Rle_trans with (1 := Rabs_triang _ _); lra).
  assert (EN : Rabs (- l_sin m xf - - sin x) <= e + 4 * uu) by (replace (- l_sin m xf - - sin x) with (- (l_sin m xf - sin x)) by ring; rewrite Rabs_Ropp; exact ES).
  assert (E0 : Rabs (0 - 0) <= e + 4 * uu) by (rewrite Rminus_0_r, Rabs_R0; lra). assert (E1 : Rabs (1 - 1) <= e + 4 * uu) by (replace (1 - 1) with 0 by ring; rewrite Rabs_R0; lra).
  split; [|split]; intros [|[|i]] [|[|j]]; cbv [fl_rotation_x fl_rotation_y fl_rotation_z eo_rotation_x eo_rotation_y eo_rotation_z m_at v_at]; assumption.
Qed.
Lemma near_abs e a b : Rabs (a - b) <= e -> near e a b.
Proof. intros H. exists 0%Z. replace (a - b - 2 * PI * 0) with (a - b) by ring. exact H. Qed.
Lemma near_opp e a b : Rabs (a - b) <= e -> near e (- a) (- b).
Proof. intros H. apply near_abs. replace (- a - - b) with (- (a - b)) by ring. rewrite Rabs_Ropp. exact H. Qed.
Lemma double_opp x : double x -> double (- x). Proof. intros H. apply generic_format_opp. exact H. Qed.
Lemma three_near sum A Af B Bf C Cf e : sum_ok sum -> is_rotation A -> is_rotation B -> is_rotation C -> mnear e Af A -> mnear e Bf B -> mnear e Cf C -> e <= / 100000000 ->
  mnear (7.8 * e + 77 * uu) (fl_matmul3 sum Af (fl_matmul3 sum Bf Cf)) (eo_matmul3 A (eo_matmul3 B C)).
Proof.
  intros S RA RB RC HA HB HC L. pose proof uu_pos as U. pose proof uu_small as US. assert (e0 : 0 <= e) by (pose proof (HA 0%nat 0%nat); pose proof (Rabs_pos (m_at Af 0 0 - m_at A 0 0)); lra).
  pose proof (matmul_near sum _ _ _ _ _ _ S RB RC HB HC ltac:(lra) ltac:(lra)) as Q. pose proof (matmul_near sum _ _ _ _ _ _ S RA (L_frames.matmul_rotation _ _ RB RC) HA Q ltac:(lra) ltac:(lra)) as Q2. apply mnear_weaken with (1 := Q2). lra.
Qed.
Ltac tn := apply tny_1; lra.
Ltac cst := apply const_ap; [rewrite Rabs_pos_eq; lra|lra].
Section Mat.
Variables (m : libm) (sq cube : R -> R) (sum : R -> R -> R -> R) (tf t T : R).
Hypothesis M : trig_ok m. Hypothesis P : pow_ok sq cube. Hypothesis S : sum_ok sum. Hypothesis HT : 1 <= T <= 82. Hypothesis DT : double tf. Hypothesis AT : ap 120 T tf t.
Lemma UT : uu <= uu * T /\ uu * T <= / 10000000000000. Proof. pose proof uu_pos. pose proof uu_small. split; nra. Qed.
(** The precession angles; [c2] and [c3] stand for the coefficients with either sign. *)
Lemma angle_ap c1 c2 c3 : 2000 <= c1 <= 2307 -> 0.3 <= c2 <= 1.1 -> 0.017 <= c3 <= 0.042 ->
  ap 130 (0.0171 * T) (fl_mul (fl_add (fl_add (fl_mul (rnd c1) tf) (fl_mul (rnd c2) (sq tf))) (fl_mul (rnd c3) (cube tf))) fl_ARCSEC2RAD) ((c1 * t + c2 * t ^ 2 + c3 * t ^ 3) * ARCSEC2RAD) /\
  ap 130 (0.0171 * T) (fl_mul (fl_sub (fl_sub (fl_mul (rnd c1) tf) (fl_mul (rnd c2) (sq tf))) (fl_mul (rnd c3) (cube tf))) fl_ARCSEC2RAD) ((c1 * t - c2 * t ^ 2 - c3 * t ^ 3) * ARCSEC2RAD).
Proof.
  intros H1 H2 H3. destruct (Tpow T HT) as (T2 & T3 & T2' & T3').
  assert (C1 : ap (1001 / 1000) 2307 (rnd c1) c1) by cst. assert (C2 : ap (1001 / 1000) 1.1 (rnd c2) c2) by cst. assert (C3 : ap (1001 / 1000) 0.042 (rnd c3) c3) by cst.
  pose proof (ap_mul _ _ _ _ _ _ _ _ C1 AT ltac:(tn) ltac:(lra)) as A1.
  pose proof (ap_mul _ _ _ _ _ _ _ _ C2 (sq_ap sq cube tf t T P HT DT AT) ltac:(tn) ltac:(lra)) as A3. assert (A3' : ap 120 (217 * T) (fl_mul (rnd c2) (sq tf)) (c2 * t ^ 2)) by (apply ap_trade with (1 := A3); lra).
  pose proof (ap_mul _ _ _ _ _ _ _ _ C3 (cube_ap sq cube tf t T P HT DT AT) ltac:(tn) ltac:(lra)) as A5. assert (A5' : ap 120 (1000 * T) (fl_mul (rnd c3) (cube tf)) (c3 * t ^ 3)) by (apply ap_trade with (1 := A5); lra).
  split.
  - pose proof (ap_add 122.1 _ _ _ _ _ _ _ _ A1 A3' ltac:(lra) ltac:(lra) ltac:(tn) ltac:(lra)) as A4. pose proof (ap_add 123.2 _ _ _ _ _ _ _ _ A4 A5' ltac:(lra) ltac:(lra) ltac:(tn) ltac:(lra)) as A6. pose proof (ap_mul _ _ _ _ _ _ _ _ A6 arcsec_ap ltac:(tn) ltac:(lra)) as A7. apply ap_weaken with (1 := A7); lra.
  - pose proof (ap_sub 122.1 _ _ _ _ _ _ _ _ A1 A3' ltac:(lra) ltac:(lra) ltac:(tn) ltac:(lra)) as A4. pose proof (ap_sub 123.2 _ _ _ _ _ _ _ _ A4 A5' ltac:(lra) ltac:(lra) ltac:(tn) ltac:(lra)) as A6. pose proof (ap_mul _ _ _ _ _ _ _ _ A6 arcsec_ap ltac:(tn) ltac:(lra)) as A7. apply ap_weaken with (1 := A7); lra.
Qed.

Lemma prec_near : mnear (127 * uu * T) (fl_precession_matrix m sq cube sum tf) (precession_matrix t).
Proof.
  pose proof UT as [U1 U2]. pose proof uu_pos as U. pose proof uu_small as US.
  assert (G : forall af a, ap 130 (0.0171 * T) af a -> Rabs (af - a) <= 2.3 * uu * T /\ Rabs af <= 2). { intros af a (_ & B & E). split; [lra|]. apply Rabs_le_inv in B, E. apply Rabs_le. lra. }
  destruct (angle_ap 2306.2181 0.30188 0.017998 ltac:(lra) ltac:(lra) ltac:(lra)) as [A1 _]. destruct (angle_ap 2004.3109 0.42665 0.041833 ltac:(lra) ltac:(lra) ltac:(lra)) as [_ A2]. destruct (angle_ap 2306.2181 1.09468 0.018203 ltac:(lra) ltac:(lra) ltac:(lra)) as [A3 _].
  unfold fl_precession_matrix, precession_matrix. cbv zeta. apply G in A1, A2, A3. destruct A1 as [A1 B1]. destruct A2 as [A2 B2]. destruct A3 as [A3 B3].
  match type of A1 with Rabs (?x - ?y) <= _ => assert (D1 : double x) by apply rnd_double; set (zf := x) in *; set (z := y) in *; clearbody zf z end.
  match type of A2 with Rabs (?x - ?y) <= _ => assert (D2 : double x) by apply rnd_double; set (hf := x) in *; set (h := y) in *; clearbody hf h end.
  match type of A3 with Rabs (?x - ?y) <= _ => assert (D3 : double x) by apply rnd_double; set (ef := x) in *; set (e := y) in *; clearbody ef e end.
  destruct (rots_near m (- ef) (- e) (2.3 * uu * T) M (double_opp _ D3) ltac:(rewrite Rabs_Ropp; lra) (near_opp _ _ _ A3) ltac:(lra)) as (_ & _ & R3).
  destruct (rots_near m (- zf) (- z) (2.3 * uu * T) M (double_opp _ D1) ltac:(rewrite Rabs_Ropp; lra) (near_opp _ _ _ A1) ltac:(lra)) as (_ & _ & R1).
  destruct (rots_near m hf h (2.3 * uu * T) M D2 ltac:(lra) (near_abs _ _ _ A2) ltac:(lra)) as (_ & R2 & _).
  pose proof (three_near sum _ _ _ _ _ _ _ S (L_eci.eo_rz_rot _) (L_eci.eo_ry_rot _) (L_eci.eo_rz_rot _) R3 R2 R1 ltac:(lra)) as Q. apply mnear_weaken with (1 := Q). lra.
Qed.
Lemma nut_near : mnear (1920 * uu * T) (fl_nutation_matrix m sq cube sum tf) (nutation_matrix t).
Proof.
  pose proof UT as [U1 U2]. pose proof uu_pos as U. pose proof uu_small as US.
  pose proof (nut_ap m sq cube tf t T M P HT DT AT) as [A1 A2]. pose proof (nut_true t) as [N1 N2]. pose proof (obl_ap sq cube tf t T P HT DT AT) as [A3 N3]. unfold fl_nutation_matrix, nutation_matrix.
  assert (D1 : double (fst (fl_nutation_short m sq cube tf))) by apply rnd_double. assert (D3 : double (fl_mean_obliquity sq cube tf)) by apply rnd_double.
  destruct (fl_nutation_short m sq cube tf) as [pf ef]. destruct (nutation_short t) as [p e]. cbn [fst snd] in *. set (of := fl_mean_obliquity sq cube tf) in *. set (o := mean_obliquity t) in *. clearbody of o. cbv zeta.
  destruct A1 as (_ & _ & A1). destruct A2 as (_ & _ & A2). destruct A3 as (_ & _ & A3). assert (EB : Rabs (of + ef) <= 1) by (apply Rabs_le_inv in A2, A3, N2, N3; apply Rabs_le; lra).
  pose proof (rnd_err (of + ef) 1 EB ltac:(pose proof tny_le_1; lra)) as Q. change (rnd (of + ef)) with (fl_add of ef) in Q. assert (D2 : double (fl_add of ef)) by apply rnd_double. set (sf := fl_add of ef) in *. clearbody sf.
  assert (A4 : Rabs (sf - (o + e)) <= 232 * uu * T). { replace (sf - (o + e)) with ((sf - (of + ef)) + ((of - o) + (ef - e))) by ring. apply Rle_trans with (1 := Rabs_triang _ _). pose proof (Rabs_triang (of - o) (ef - e)). lra. }
  assert (A1' : Rabs (pf - p) <= 232 * uu * T) by lra. assert (A3' : Rabs (of - o) <= 232 * uu * T) by lra.
  destruct (rots_near m (- sf) (- (o + e)) (232 * uu * T) M (double_opp _ D2) ltac:(rewrite Rabs_Ropp; apply Rabs_le_inv in A4, N2, N3; apply Rabs_le; lra) (near_opp _ _ _ A4) ltac:(lra)) as (R3 & _ & _).
  destruct (rots_near m (- pf) (- p) (232 * uu * T) M (double_opp _ D1) ltac:(rewrite Rabs_Ropp; apply Rabs_le_inv in A1, N1; apply Rabs_le; lra) (near_opp _ _ _ A1') ltac:(lra)) as (_ & _ & R2).
  destruct (rots_near m of o (232 * uu * T) M D3 ltac:(apply Rabs_le_inv in A3, N3; apply Rabs_le; lra) (near_abs _ _ _ A3') ltac:(lra)) as (R1 & _ & _).
  pose proof (three_near sum _ _ _ _ _ _ _ S (L_eci.eo_rx_rot _) (L_eci.eo_rz_rot _) (L_eci.eo_rx_rot _) R3 R2 R1 ltac:(lra)) as X. apply mnear_weaken with (1 := X). lra.
Qed.
Lemma polar_near xp yp : Rabs xp <= 100000 -> Rabs yp <= 100000 -> mnear (48 * uu) (fl_polar_motion_matrix m sum xp yp) (polar_motion_matrix xp yp).
Proof.
  intros HX HY. pose proof uu_pos as U. pose proof uu_small as US. unfold fl_polar_motion_matrix, polar_motion_matrix. cbv zeta.
  assert (G : forall x, Rabs x <= 100000 -> Rabs (fl_mul x fl_ARCSEC2RAD - x * ARCSEC2RAD) <= 1.5 * uu /\ Rabs (fl_mul x fl_ARCSEC2RAD) <= 1).
  { intros x Hx. pose proof (ap_mul _ _ _ _ _ _ _ _ (ap_exact x 100000 Hx) arcsec_ap ltac:(tn) ltac:(lra)) as (_ & B & E). split; [lra|]. apply Rabs_le_inv in B, E. apply Rabs_le. lra. }
  destruct (G xp HX) as [X1 X2]. destruct (G yp HY) as [Y1 Y2].
  destruct (rots_near m (fl_mul xp fl_ARCSEC2RAD) (xp * ARCSEC2RAD) (1.5 * uu) M (rnd_double (xp * fl_ARCSEC2RAD)) ltac:(lra) (near_abs _ _ _ X1) ltac:(lra)) as (_ & RX & _).
  destruct (rots_near m (fl_mul yp fl_ARCSEC2RAD) (yp * ARCSEC2RAD) (1.5 * uu) M (rnd_double (yp * fl_ARCSEC2RAD)) ltac:(lra) (near_abs _ _ _ Y1) ltac:(lra)) as (RY & _ & _).
  pose proof (matmul_near sum _ _ _ _ _ _ S (L_eci.eo_ry_rot _) (L_eci.eo_rx_rot _) RX RY ltac:(lra) ltac:(lra)) as Q. apply mnear_weaken with (1 := Q). lra.
Qed.
Lemma whole_near gf g e xp yp : double gf -> Rabs gf <= 6.29 -> near e gf g -> 0 <= e <= / 10000000 -> Rabs xp <= 100000 -> Rabs yp <= 100000 ->
  mnear (3.001 * e + 10900 * uu * T)
    (fl_matmul3 sum (fl_polar_motion_matrix m sum xp yp) (fl_matmul3 sum (fl_rotation_z m gf) (fl_matmul3 sum (fl_nutation_matrix m sq cube sum tf) (fl_precession_matrix m sq cube sum tf))))
    (eo_matmul3 (polar_motion_matrix xp yp) (eo_matmul3 (eo_rotation_z g) (eo_matmul3 (nutation_matrix t) (precession_matrix t)))).
Proof.
  intros D B N He HX HY. pose proof UT as [U1 U2]. pose proof uu_pos as U. pose proof uu_small as US.
  pose proof (matmul_near sum _ _ _ _ _ _ S (L_eci.nutation_rot t) (L_eci.precession_rot t) nut_near prec_near ltac:(lra) ltac:(lra)) as Q1. assert (W1 : is_rotation (eo_matmul3 (nutation_matrix t) (precession_matrix t))) by (apply L_frames.matmul_rotation; [apply L_eci.nutation_rot|apply L_eci.precession_rot]).
  destruct (rots_near m gf g e M D ltac:(lra) N ltac:(lra)) as (_ & _ & RG).
  pose proof (matmul_near sum _ _ _ _ _ _ S (L_eci.eo_rz_rot g) W1 RG Q1 ltac:(lra) ltac:(lra)) as Q2. assert (W2 : is_rotation (eo_matmul3 (eo_rotation_z g) (eo_matmul3 (nutation_matrix t) (precession_matrix t)))) by (apply L_frames.matmul_rotation; [apply L_eci.eo_rz_rot|exact W1]).
  pose proof (matmul_near sum _ _ _ _ _ _ S (L_eci.polar_rot xp yp) W2 (polar_near xp yp HX HY) Q2 ltac:(lra) ltac:(lra)) as Q3. apply mnear_weaken with (1 := Q3). lra.
Qed.
(** The computed matrices are close to rotations through the computed angles, far closer than the angles are to the exact ones. *)
Lemma self_near x : near 0 x x. Proof. exists 0%Z. replace (x - x - 2 * PI * 0) with 0 by ring. rewrite Rabs_R0. lra. Qed.
Lemma prec_self : exists K, is_rotation K /\ mnear (109 * uu) (fl_precession_matrix m sq cube sum tf) K.
Proof.
  pose proof UT as [U1 U2]. pose proof uu_pos as U. pose proof uu_small as US.
  assert (G : forall af a, ap 130 (0.0171 * T) af a -> Rabs af <= 2). { intros af a (_ & B & E). apply Rabs_le_inv in B, E. apply Rabs_le. lra. }
  destruct (angle_ap 2306.2181 0.30188 0.017998 ltac:(lra) ltac:(lra) ltac:(lra)) as [A1 _]. destruct (angle_ap 2004.3109 0.42665 0.041833 ltac:(lra) ltac:(lra) ltac:(lra)) as [_ A2]. destruct (angle_ap 2306.2181 1.09468 0.018203 ltac:(lra) ltac:(lra) ltac:(lra)) as [A3 _].
  unfold fl_precession_matrix. cbv zeta. apply G in A1, A2, A3.
  match type of A1 with Rabs ?x <= _ => assert (D1 : double x) by apply rnd_double; set (zf := x) in *; clearbody zf end.
  match type of A2 with Rabs ?x <= _ => assert (D2 : double x) by apply rnd_double; set (hf := x) in *; clearbody hf end.
  match type of A3 with Rabs ?x <= _ => assert (D3 : double x) by apply rnd_double; set (ef := x) in *; clearbody ef end.
  destruct (rots_near m (- ef) (- ef) 0 M (double_opp _ D3) ltac:(rewrite Rabs_Ropp; lra) (self_near _) ltac:(lra)) as (_ & _ & R3).
  destruct (rots_near m (- zf) (- zf) 0 M (double_opp _ D1) ltac:(rewrite Rabs_Ropp; lra) (self_near _) ltac:(lra)) as (_ & _ & R1).
  destruct (rots_near m hf hf 0 M D2 ltac:(lra) (self_near _) ltac:(lra)) as (_ & R2 & _).
  pose proof (three_near sum _ _ _ _ _ _ _ S (L_eci.eo_rz_rot _) (L_eci.eo_ry_rot _) (L_eci.eo_rz_rot _) R3 R2 R1 ltac:(lra)) as Q. eexists. split; [|apply mnear_weaken with (1 := Q); lra].
  change eo_matmul3 with matmul3. repeat apply L_frames.matmul_rotation; (apply L_eci.eo_rz_rot || apply L_eci.eo_ry_rot).
Qed.
Lemma nut_self : exists K, is_rotation K /\ mnear (109 * uu) (fl_nutation_matrix m sq cube sum tf) K.
Proof.
  pose proof UT as [U1 U2]. pose proof uu_pos as U. pose proof uu_small as US.
  pose proof (nut_ap m sq cube tf t T M P HT DT AT) as [A1 A2]. pose proof (nut_true t) as [N1 N2]. pose proof (obl_ap sq cube tf t T P HT DT AT) as [A3 N3]. unfold fl_nutation_matrix.
  assert (D1 : double (fst (fl_nutation_short m sq cube tf))) by apply rnd_double. assert (D3 : double (fl_mean_obliquity sq cube tf)) by apply rnd_double.
  destruct (fl_nutation_short m sq cube tf) as [pf ef]. destruct (nutation_short t) as [p e]. cbn [fst snd] in *. set (of := fl_mean_obliquity sq cube tf) in *. set (o := mean_obliquity t) in *. clearbody of o. cbv zeta.
  destruct A1 as (_ & _ & A1). destruct A2 as (_ & _ & A2). destruct A3 as (_ & _ & A3). assert (EB : Rabs (of + ef) <= 1) by (apply Rabs_le_inv in A2, A3, N2, N3; apply Rabs_le; lra).
  pose proof (rnd_err (of + ef) 1 EB ltac:(pose proof tny_le_1; lra)) as Q. change (rnd (of + ef)) with (fl_add of ef) in Q. assert (D2 : double (fl_add of ef)) by apply rnd_double. set (sf := fl_add of ef) in *. clearbody sf.
  destruct (rots_near m (- sf) (- sf) 0 M (double_opp _ D2) ltac:(rewrite Rabs_Ropp; apply Rabs_le_inv in Q, EB; apply Rabs_le; lra) (self_near _) ltac:(lra)) as (R3 & _ & _).
  destruct (rots_near m (- pf) (- pf) 0 M (double_opp _ D1) ltac:(rewrite Rabs_Ropp; apply Rabs_le_inv in A1, N1; apply Rabs_le; lra) (self_near _) ltac:(lra)) as (_ & _ & R2).
  destruct (rots_near m of of 0 M D3 ltac:(apply Rabs_le_inv in A3, N3; apply Rabs_le; lra) (self_near _) ltac:(lra)) as (R1 & _ & _).
  pose proof (three_near sum _ _ _ _ _ _ _ S (L_eci.eo_rx_rot _) (L_eci.eo_rz_rot _) (L_eci.eo_rx_rot _) R3 R2 R1 ltac:(lra)) as X. eexists. split; [|apply mnear_weaken with (1 := X); lra].
  change eo_matmul3 with matmul3. repeat apply L_frames.matmul_rotation; (apply L_eci.eo_rz_rot || apply L_eci.eo_rx_rot).
Qed.
Lemma polar_self xp yp : Rabs xp <= 100000 -> Rabs yp <= 100000 -> exists K, is_rotation K /\ mnear (42 * uu) (fl_polar_motion_matrix m sum xp yp) K.
Proof.
  intros HX HY. pose proof uu_pos as U. pose proof uu_small as US. unfold fl_polar_motion_matrix. cbv zeta.
  assert (G : forall x, Rabs x <= 100000 -> Rabs (fl_mul x fl_ARCSEC2RAD) <= 1).
  { intros x Hx. pose proof (ap_mul _ _ _ _ _ _ _ _ (ap_exact x 100000 Hx) arcsec_ap ltac:(tn) ltac:(lra)) as (_ & B & E). apply Rabs_le_inv in B, E. apply Rabs_le. lra. }
  pose proof (G xp HX) as X2. pose proof (G yp HY) as Y2.
  destruct (rots_near m (fl_mul xp fl_ARCSEC2RAD) (fl_mul xp fl_ARCSEC2RAD) 0 M (rnd_double (xp * fl_ARCSEC2RAD)) ltac:(lra) (self_near _) ltac:(lra)) as (_ & RX & _).
  destruct (rots_near m (fl_mul yp fl_ARCSEC2RAD) (fl_mul yp fl_ARCSEC2RAD) 0 M (rnd_double (yp * fl_ARCSEC2RAD)) ltac:(lra) (self_near _) ltac:(lra)) as (RY & _ & _).
  pose proof (matmul_near sum _ _ _ _ _ _ S (L_eci.eo_ry_rot _) (L_eci.eo_rx_rot _) RX RY ltac:(lra) ltac:(lra)) as Q. eexists. split; [|apply mnear_weaken with (1 := Q); lra].
  change eo_matmul3 with matmul3. apply L_frames.matmul_rotation; (apply L_eci.eo_ry_rot || apply L_eci.eo_rx_rot).
Qed.
Lemma whole_self gf xp yp : double gf -> Rabs gf <= 6.29 -> Rabs xp <= 100000 -> Rabs yp <= 100000 ->
  exists K, is_rotation K /\ mnear (1390 * uu) (fl_matmul3 sum (fl_polar_motion_matrix m sum xp yp) (fl_matmul3 sum (fl_rotation_z m gf) (fl_matmul3 sum (fl_nutation_matrix m sq cube sum tf) (fl_precession_matrix m sq cube sum tf)))) K.
Proof.
  intros D B HX HY. pose proof uu_pos as U. pose proof uu_small as US. destruct prec_self as (KP & RP & NP). destruct nut_self as (KN & RN & NN). destruct (polar_self xp yp HX HY) as (KM & RM & NM).
  pose proof (matmul_near sum _ _ _ _ _ _ S RN RP NN NP ltac:(lra) ltac:(lra)) as Q1. pose proof (L_frames.matmul_rotation _ _ RN RP) as W1.
  destruct (rots_near m gf gf 0 M D ltac:(lra) (self_near gf) ltac:(lra)) as (_ & _ & RG).
  pose proof (matmul_near sum _ _ _ _ _ _ S (L_eci.eo_rz_rot gf) W1 RG Q1 ltac:(lra) ltac:(lra)) as Q2. pose proof (L_frames.matmul_rotation _ _ (L_eci.eo_rz_rot gf) W1) as W2.
  pose proof (matmul_near sum _ _ _ _ _ _ S RM W2 NM Q2 ltac:(lra) ltac:(lra)) as Q3. eexists. split; [exact (L_frames.matmul_rotation _ _ RM W2)|]. apply mnear_weaken with (1 := Q3). lra.
Qed.
End Mat.
(** ** C99: the rotation *)
Theorem C99_rotation_defined : forall m sq cube sum t d xp yp, (exists A, eci_to_ecef_matrix t d xp yp = Ok A) <-> (exists A, fl_eci_to_ecef_matrix m sq cube sum t d xp yp = Ok A).
Proof.
  intros m sq cube sum t d xp yp. unfold eci_to_ecef_matrix, fl_eci_to_ecef_matrix.
  destruct (utc_with_offset t d) as [u|e]; cbn [bind]; [|split; intros [s H]; discriminate]. destruct (utc_to_tt t) as [v|e]; cbn [bind].
  - pose proof (defined_same u) as DU. pose proof (defined_same v) as DV. destruct (juliandate u), (fl_juliandate u); cbn [bind]; destruct (juliandate v), (fl_juliandate v); cbn [bind]; split; intros [s H]; try discriminate; try (eexists; reflexivity); exfalso; clear H s;
    first [destruct DU as [DU _]; destruct DU as [? DU]; [eexists; reflexivity|discriminate] | destruct DU as [_ DU]; destruct DU as [? DU]; [eexists; reflexivity|discriminate] | destruct DV as [DV _]; destruct DV as [? DV]; [eexists; reflexivity|discriminate] | destruct DV as [_ DV]; destruct DV as [? DV]; [eexists; reflexivity|discriminate]].
  - destruct (juliandate u), (fl_juliandate u); cbn [bind]; split; intros [s H]; discriminate.
Qed.
(** The error allowed, relative to |x| + |y| + |z|: 5.6e-9 within a century of J2000, 8.7e-8 at worst. *)
Definition rot_err (t : datetime) : R := (if (instant t <=? instant (utc_at 6770 1 1 0 0 0 0))%Z then 4.6 / 10 ^ 9 else 9.1 / 10 ^ 9)
  + 9.7 / 10 ^ 10 * Rmax 1 (Rabs (IZR (instant t - instant (utc_at 2000 1 1 12 0 0 0))) / (36525 * 86400000000)).
Lemma rot_err_small t : datestep t <= 3 / 10 ^ 9 /\ 0 <= datestep t /\ 3.001 * datestep t + 9.7 / 10 ^ 10 * centuries t <= rot_err t - / 10 ^ 12 /\ (centuries t <= 80.1 -> 1 <= centuries t -> 0 <= rot_err t <= / 10000000).
Proof. unfold rot_err, datestep. fold (centuries t). destruct (Z.leb _ _); lra. Qed.
Lemma rotation_err m sq cube sum t d xp yp A Af : trig_ok m -> pow_ok sq cube -> sum_ok sum -> valid_dt t -> Rabs d <= 1000 -> Rabs xp <= 100000 -> Rabs yp <= 100000 ->
  eci_to_ecef_matrix t d xp yp = Ok A -> fl_eci_to_ecef_matrix m sq cube sum t d xp yp = Ok Af -> mnear (rot_err t - / 10 ^ 12) Af A /\ 0 <= rot_err t <= / 10000000.
Proof.
  intros M P S V HD HX HY Es Ef. unfold eci_to_ecef_matrix in Es. unfold fl_eci_to_ecef_matrix in Ef.
  destruct (utc_to_tt t) as [v|e] eqn:ET; [|destruct (bind (utc_with_offset t d) juliandate); discriminate]. destruct (utc_with_offset t d) as [u|e] eqn:EU; [|discriminate]. cbn [bind] in Es, Ef.
  destruct (juliandate u) as [j1|] eqn:J1; [|discriminate]. destruct (juliandate v) as [j2|] eqn:J2; [|discriminate]. destruct (fl_juliandate u) as [j1f|] eqn:F1; [|discriminate]. destruct (fl_juliandate v) as [j2f|] eqn:F2; [|discriminate]. cbn [bind] in Es, Ef. injection Es as <-. injection Ef as <-.
  destruct (times_err sq cube t d u v j1 j1f j2 j2f P V HD EU ET J1 J2 F1 F2) as (HT & N1 & A2). pose proof (rot_err_small t) as (D1 & D0 & RE & RS). set (T := centuries t) in *. set (b := datestep t) in *. clearbody T b.
  destruct (gast_err m sq cube j1f j1 j2f j2 (T + 1 / 1000000) _ M P ltac:(lra) N1 A2) as [N2 NB]. pose proof uu_pos as U. pose proof uu_small as US. assert (U2 : 0 < uu * T <= / 10000000000) by nra.
  assert (DG : double (fl_apparent_sidereal_time m sq cube j1f j2f)). { unfold fl_apparent_sidereal_time. pose proof tau_pos. apply C56_mod_range; [apply rnd_double|apply rnd_double|lra]. }
  assert (EB : 0 <= b + 3.2 / 10 ^ 10 * (T + 1 / 1000000) + 270 * uu * (T + 1 / 1000000) <= / 10000000) by lra. assert (DF : double (fl_julian_centuries j2f)) by apply rnd_double.
  pose proof (whole_near m sq cube sum _ _ (T + 1 / 1000000) M P S ltac:(lra) DF A2 _ _ _ xp yp DG NB N2 EB HX HY) as Q. split; [|lra]. intros i j. apply Rle_trans with (1 := Q i j). apply Rle_trans with (2 := RE). unfold uu. lra.
Qed.
(** Every entry of the matrix. *)
Theorem C99_rotation : forall m sq cube sum t d xp yp A Af, trig_ok m -> pow_ok sq cube -> sum_ok sum -> valid_dt t -> Rabs d <= 1000 -> Rabs xp <= 100000 -> Rabs yp <= 100000 ->
  eci_to_ecef_matrix t d xp yp = Ok A -> fl_eci_to_ecef_matrix m sq cube sum t d xp yp = Ok Af -> forall i j, Rabs (m_at Af i j - m_at A i j) <= rot_err t.
Proof.
  intros m sq cube sum t d xp yp A Af M P S V HD HX HY Es Ef i j. destruct (rotation_err m sq cube sum t d xp yp A Af M P S V HD HX HY Es Ef) as [N _]. specialize (N i j). lra.
Qed.
(** The parts that do not depend on the sidereal time, on their own: 1.5e-14 and 2.2e-13 per century from J2000, and at least one. *)
Theorem C99_precession_nutation : forall m sq cube sum ttt, trig_ok m -> pow_ok sq cube -> sum_ok sum -> double ttt -> Rabs ttt <= 82 -> forall i j,
  Rabs (m_at (fl_precession_matrix m sq cube sum ttt) i j - m_at (precession_matrix ttt) i j) <= 1.5 / 10 ^ 14 * Rmax 1 (Rabs ttt) /\
  Rabs (m_at (fl_nutation_matrix m sq cube sum ttt) i j - m_at (nutation_matrix ttt) i j) <= 2.2 / 10 ^ 13 * Rmax 1 (Rabs ttt).
Proof.
  intros m sq cube sum ttt M P S D H i j. pose proof (Rmax_l 1 (Rabs ttt)) as M1. pose proof (Rmax_r 1 (Rabs ttt)) as M2. assert (M3 : Rmax 1 (Rabs ttt) <= 82) by (apply Rmax_lub; lra). set (T := Rmax 1 (Rabs ttt)) in *.
  assert (A : ap 120 T ttt ttt) by (apply ap_weaken with 0 T; [apply ap_exact; exact M2|lra|lra]).
  pose proof (prec_near m sq cube sum ttt ttt T M P S ltac:(lra) D A i j) as Q1. pose proof (nut_near m sq cube sum ttt ttt T M P S ltac:(lra) D A i j) as Q2. unfold uu in *. lra.
Qed.
Lemma mv_at A v i : v_at (eo_matvec3 A v) i = m_at A i 0 * v_at v 0 + m_at A i 1 * v_at v 1 + m_at A i 2 * v_at v 2.
Proof. destruct A as [[[[a b] c] [[d e] f]] [[g h] k]]. destruct v as [[x y] z]. destruct i as [|[|i]]; reflexivity. Qed.
Lemma fmv_at sum A v i : v_at (fl_matvec3 sum A v) i = sum (fl_mul (m_at A i 0) (v_at v 0)) (fl_mul (m_at A i 1) (v_at v 1)) (fl_mul (m_at A i 2) (v_at v 2)).
Proof. destruct A as [[[[a b] c] [[d e] f]] [[g h] k]]. destruct v as [[x y] z]. destruct i as [|[|i]]; reflexivity. Qed.
Lemma one_two : 1 <= 2.01. Proof. lra. Qed.
Lemma rot_le2 A : is_rotation A -> forall i j, Rabs (m_at A i j) <= 1.
Proof. intros H i j. destruct (rot_row A i H) as (A0 & A1 & A2 & _). destruct A as [[[[a b] c] [[d e] f]] [[g h] k]]. destruct i as [|[|i]]; destruct j as [|[|j]]; cbv [m_at v_at] in *; assumption. Qed.
Lemma matvec_near sum A Af e x y z : sum_ok sum -> (forall i j, Rabs (m_at A i j) <= 2.01) -> mnear e Af A -> e <= / 1000000 -> Rabs x + Rabs y + Rabs z <= 10 ^ 14 ->
  forall i, Rabs (v_at (fl_matvec3 sum Af (x, y, z)) i - v_at (eo_matvec3 A (x, y, z)) i) <= (e + 23 * uu) * Rmax 1 (Rabs x + Rabs y + Rabs z).
Proof.
  intros S RA N He HB i. rewrite mv_at, fmv_at. pose proof (RA i 0%nat) as A0. pose proof (RA i 1%nat) as A1. pose proof (RA i 2%nat) as A2. pose proof (N i 0%nat) as N0. pose proof (N i 1%nat) as N1. pose proof (N i 2%nat) as N2. cbn [v_at].
  pose proof (Rmax_l 1 (Rabs x + Rabs y + Rabs z)) as M1. pose proof (Rmax_r 1 (Rabs x + Rabs y + Rabs z)) as M2. assert (M3 : Rmax 1 (Rabs x + Rabs y + Rabs z) <= 10 ^ 14) by (apply Rmax_lub; lra). set (W := Rmax _ _) in *. clearbody W.
  pose proof uu_pos as U. pose proof uu_small as US. pose proof tny_le_1 as TN. assert (UW : uu * W <= / 1000000 * W) by (apply Rmult_le_compat_r; lra).
  assert (G : forall cf c v, Rabs (cf - c) <= e -> Rabs c <= 2.01 -> Rabs v <= W -> Rabs (fl_mul cf v - c * v) <= e * Rabs v + 2.011 * (uu * W) /\ Rabs (fl_mul cf v) <= 2.011 * Rabs v + 2.011 * (uu * W)).
  { intros cf c v E C B. pose proof (Rabs_pos (cf - c)). pose proof (Rabs_pos v) as V0.
    assert (E1 : Rabs (cf * v - c * v) <= e * Rabs v) by (replace (cf * v - c * v) with ((cf - c) * v) by ring; rewrite Rabs_mult; apply Rmult_le_compat_r; lra).
    assert (CB : Rabs cf <= 2.011) by (replace cf with ((cf - c) + c) by ring; apply Rle_trans with (1 := Rabs_triang _ _); lra).
    assert (E2 : Rabs (cf * v) <= 2.011 * Rabs v) by (rewrite Rabs_mult; apply Rmult_le_compat_r; lra).
    pose proof (rnd_err (cf * v) (2.011 * W) ltac:(lra) ltac:(lra)) as Q. change (rnd (cf * v)) with (fl_mul cf v) in Q. replace (uu * (2.011 * W)) with (2.011 * (uu * W)) in Q by ring. split.
    - replace (fl_mul cf v - c * v) with ((fl_mul cf v - cf * v) + (cf * v - c * v)) by ring. apply Rle_trans with (1 := Rabs_triang _ _). lra.
    - replace (fl_mul cf v) with ((fl_mul cf v - cf * v) + cf * v) by ring. apply Rle_trans with (1 := Rabs_triang _ _). lra. }
  pose proof (Rabs_pos x). pose proof (Rabs_pos y). pose proof (Rabs_pos z).
  destruct (G _ _ x N0 A0 ltac:(lra)) as [E0 F0]. destruct (G _ _ y N1 A1 ltac:(lra)) as [E1 F1]. destruct (G _ _ z N2 A2 ltac:(lra)) as [E2 F2]. clear G.
  assert (D0 : double (fl_mul (m_at Af i 0) x)) by apply rnd_double. assert (D1 : double (fl_mul (m_at Af i 1) y)) by apply rnd_double. assert (D2 : double (fl_mul (m_at Af i 2) z)) by apply rnd_double.
  assert (e0 : 0 <= e) by (pose proof (Rabs_pos (m_at Af i 0 - m_at A i 0)); lra). clear N0 N1 N2.
  set (p0 := fl_mul (m_at Af i 0) x) in *. set (p1 := fl_mul (m_at Af i 1) y) in *. set (p2 := fl_mul (m_at Af i 2) z) in *. clearbody p0 p1 p2. set (c0 := m_at A i 0 * x) in *. set (c1 := m_at A i 1 * y) in *. set (c2 := m_at A i 2 * z) in *. clearbody c0 c1 c2.
  pose proof (S p0 p1 p2 D0 D1 D2 ltac:(lra)) as Q. assert (MX : Rmax 1 (Rabs p0 + Rabs p1 + Rabs p2) <= 2.02 * W) by (apply Rmax_lub; lra).
  assert (QB : 8 * uu * Rmax 1 (Rabs p0 + Rabs p1 + Rabs p2) <= 8 * uu * (2.02 * W)) by (apply Rmult_le_compat_l; lra). assert (EW : e * (Rabs x + Rabs y + Rabs z) <= e * W) by (apply Rmult_le_compat_l; lra).
  replace (sum p0 p1 p2 - (c0 + c1 + c2)) with ((sum p0 p1 p2 - (p0 + p1 + p2)) + ((p0 - c0) + (p1 - c1) + (p2 - c2))) by ring.
  apply Rle_trans with (1 := Rabs_triang _ _). pose proof (Rabs_triang (p0 - c0 + (p1 - c1)) (p2 - c2)) as T1. pose proof (Rabs_triang (p0 - c0) (p1 - c1)) as T2. assert (UWp : 0 <= uu * W) by (apply Rmult_le_pos; lra). lra.
Qed.
(** [eci2ecef] and [ecef2eci] as they are called, on one position: every coordinate within [rot_err] times |x| + |y| + |z| (or 1 m, if more). *)
Theorem C99_eci2ecef : forall m sq cube sum x y z t d xp yp p, trig_ok m -> pow_ok sq cube -> sum_ok sum -> valid_dt t -> Rabs d <= 1000 -> Rabs xp <= 100000 -> Rabs yp <= 100000 -> Rabs x + Rabs y + Rabs z <= 10 ^ 14 ->
  eci2ecef x y z t d xp yp = Ok p -> exists pf, fl_eci2ecef m sq cube sum x y z t d xp yp = Ok pf /\ forall i, Rabs (v_at pf i - v_at p i) <= rot_err t * Rmax 1 (Rabs x + Rabs y + Rabs z).
Proof.
  intros m sq cube sum x y z t d xp yp p M P S V HD HX HY HB E. unfold eci2ecef in E. destruct (eci_to_ecef_matrix t d xp yp) as [A|] eqn:EA; [|discriminate]. cbn [bind] in E. injection E as <-.
  destruct (proj1 (C99_rotation_defined m sq cube sum t d xp yp) (ex_intro _ A EA)) as [Af EF]. unfold fl_eci2ecef. rewrite EF. cbn [bind]. eexists. split; [reflexivity|]. intros i.
  destruct (rotation_err m sq cube sum t d xp yp A Af M P S V HD HX HY EA EF) as [N RS]. pose proof (matvec_near sum A Af _ x y z S (fun i j => Rle_trans _ _ _ (rot_le2 A (L_eci.eci_matrix_rot t d xp yp A EA) i j) one_two) N ltac:(lra) HB i) as Q. apply Rle_trans with (1 := Q). apply Rmult_le_compat_r; [pose proof (Rmax_l 1 (Rabs x + Rabs y + Rabs z)); lra|]. unfold uu. lra.
Qed.
Theorem C99_ecef2eci : forall m sq cube sum x y z t d xp yp p, trig_ok m -> pow_ok sq cube -> sum_ok sum -> valid_dt t -> Rabs d <= 1000 -> Rabs xp <= 100000 -> Rabs yp <= 100000 -> Rabs x + Rabs y + Rabs z <= 10 ^ 14 ->
  ecef2eci x y z t d xp yp = Ok p -> exists pf, fl_ecef2eci m sq cube sum x y z t d xp yp = Ok pf /\ forall i, Rabs (v_at pf i - v_at p i) <= rot_err t * Rmax 1 (Rabs x + Rabs y + Rabs z).
Proof.
  intros m sq cube sum x y z t d xp yp p M P S V HD HX HY HB E. unfold ecef2eci in E. destruct (eci_to_ecef_matrix t d xp yp) as [A|] eqn:EA; [|discriminate]. cbn [bind] in E. injection E as <-.
  destruct (proj1 (C99_rotation_defined m sq cube sum t d xp yp) (ex_intro _ A EA)) as [Af EF]. unfold fl_ecef2eci. rewrite EF. cbn [bind]. eexists. split; [reflexivity|]. intros i.
  destruct (rotation_err m sq cube sum t d xp yp A Af M P S V HD HX HY EA EF) as [N RS]. assert (N' : mnear (rot_err t - / 10 ^ 12) (eo_transpose3 Af) (eo_transpose3 A)) by (intros a b; change eo_transpose3 with transpose3; rewrite !tr_at; apply N).
  pose proof (matvec_near sum (eo_transpose3 A) (eo_transpose3 Af) _ x y z S (fun i j => Rle_trans _ _ _ (rot_le2 _ (L_frames.transpose_rotation A (L_eci.eci_matrix_rot t d xp yp A EA)) i j) one_two) N' ltac:(lra) HB i) as Q. apply Rle_trans with (1 := Q). apply Rmult_le_compat_r; [pose proof (Rmax_l 1 (Rabs x + Rabs y + Rabs z)); lra|]. unfold uu. lra.
Qed.
Lemma rate_near m sq cube sum t d xp yp tp tm A : trig_ok m -> pow_ok sq cube -> sum_ok sum -> valid_dt t -> Rabs d <= 1000 -> Rabs xp <= 100000 -> Rabs yp <= 100000 -> dt_add t 500000 = Ok tp -> dt_add t (-500000) = Ok tm ->
  eci_to_ecef_matrix_rate t d xp yp 0.5 = Ok A -> exists Af, fl_eci_to_ecef_matrix_rate m sq cube sum t d xp yp = Ok Af /\ mnear (rot_err tp + rot_err tm - 1.9 / 10 ^ 12) Af A /\ (forall i j, Rabs (m_at A i j) <= 2) /\ 0 <= rot_err tp + rot_err tm <= / 5000000.
Proof.
  intros M P S V HD HX HY Ep Em E. unfold eci_to_ecef_matrix_rate in E. unfold fl_eci_to_ecef_matrix_rate.
  assert (H5 : timedelta_seconds 0.5 = 500000%Z) by (unfold timedelta_seconds; replace (0.5 * 1000000) with (IZR 500000) by lra; apply L_earth.round_half_even_int).
  rewrite H5 in *. change (Z.opp 500000) with (-500000)%Z in *. rewrite Ep, Em in *. cbn [bind] in *.
  pose proof (L_time.dt_add_spec t 500000 V) as VP. rewrite Ep in VP. destruct VP as [VP _]. pose proof (L_time.dt_add_spec t (-500000) V) as VM. rewrite Em in VM. destruct VM as [VM _].
  destruct (eci_to_ecef_matrix tp d xp yp) as [B|] eqn:EB; [|discriminate]. destruct (eci_to_ecef_matrix tm d xp yp) as [C|] eqn:EC; [|discriminate]. cbn [bind] in E. injection E as <-.
  destruct (proj1 (C99_rotation_defined m sq cube sum tp d xp yp) (ex_intro _ B EB)) as [Bf FB]. destruct (proj1 (C99_rotation_defined m sq cube sum tm d xp yp) (ex_intro _ C EC)) as [Cf FC]. rewrite FB, FC. cbn [bind].
  destruct (rotation_err m sq cube sum tp d xp yp B Bf M P S VP HD HX HY EB FB) as [NB RB]. destruct (rotation_err m sq cube sum tm d xp yp C Cf M P S VM HD HX HY EC FC) as [NC RC].
  pose proof (rot_le2 B (L_eci.eci_matrix_rot tp d xp yp B EB)) as LB. pose proof (rot_le2 C (L_eci.eci_matrix_rot tm d xp yp C EC)) as LC. eexists. split; [reflexivity|].
  replace (fl_div 1 (fl_mul 2 0.5)) with 1. 2:{ unfold fl_mul. replace (2 * 0.5) with 1 by lra. assert (D1 : double 1) by (apply (double_int 1); reflexivity). rewrite (rnd_id 1 D1). unfold fl_div. replace (1 / 1) with 1 by lra. rewrite (rnd_id 1 D1). reflexivity. }
  replace (1 / (2 * 0.5)) with 1 by lra. pose proof uu_pos as U. pose proof uu_small as US. pose proof tny_le_1 as TN.
  assert (G : forall bf b cf c, Rabs (bf - b) <= rot_err tp - / 10 ^ 12 -> Rabs (cf - c) <= rot_err tm - / 10 ^ 12 -> Rabs b <= 1 -> Rabs c <= 1 -> Rabs (fl_mul 1 (fl_sub bf cf) - 1 * (b - c)) <= rot_err tp + rot_err tm - 1.9 / 10 ^ 12 /\ Rabs (1 * (b - c)) <= 2).
  { intros bf b cf c Eb Ec Lb Lc. assert (F : fl_mul 1 (fl_sub bf cf) = fl_sub bf cf) by (unfold fl_mul; rewrite Rmult_1_l; apply rnd_id; apply rnd_double). rewrite F, Rmult_1_l. apply Rabs_le_inv in Eb, Ec, Lb, Lc. assert (Q0 : Rabs (bf - cf) <= 2.1) by (apply Rabs_le; lra).
    pose proof (rnd_err (bf - cf) 2.1 Q0 ltac:(lra)) as Q. change (rnd (bf - cf)) with (fl_sub bf cf) in Q. apply Rabs_le_inv in Q. split; apply Rabs_le; [|lra]. unfold uu in Q. lra. }
  assert (X : forall i j, m_at (fl_matscale3 (fl_matsub3 Bf Cf) 1) i j = fl_mul 1 (fl_sub (m_at Bf i j) (m_at Cf i j)) /\ m_at (eo_matscale3 (eo_matsub3 B C) 1) i j = 1 * (m_at B i j - m_at C i j)).
  { clear. intros i j. destruct B as [[[[? ?] ?] [[? ?] ?]] [[? ?] ?]]. destruct C as [[[[? ?] ?] [[? ?] ?]] [[? ?] ?]]. destruct Bf as [[[[? ?] ?] [[? ?] ?]] [[? ?] ?]]. destruct Cf as [[[[? ?] ?] [[? ?] ?]] [[? ?] ?]]. destruct i as [|[|i]]; destruct j as [|[|j]]; split; reflexivity. }
  split; [|split; [|lra]]; intros i j; destruct (X i j) as [X1 X2]; destruct (G _ _ _ _ (NB i j) (NC i j) (LB i j) (LC i j)) as [G1 G2]; [rewrite X1, X2; exact G1|rewrite X2; exact G2].
Qed.
(** [eci2ecef_state]: the position as above; the velocity also carries the two matrices whose difference is the rotation rate, half a second either side. *)
Theorem C99_eci2ecef_state : forall m sq cube sum x y z vx vy vz t d xp yp tp tm q w, trig_ok m -> pow_ok sq cube -> sum_ok sum -> valid_dt t -> Rabs d <= 1000 -> Rabs xp <= 100000 -> Rabs yp <= 100000 ->
  Rabs x + Rabs y + Rabs z <= 10 ^ 14 -> Rabs vx + Rabs vy + Rabs vz <= 10 ^ 14 -> dt_add t 500000 = Ok tp -> dt_add t (-500000) = Ok tm -> eci2ecef_state (x, y, z) (vx, vy, vz) t d xp yp = Ok (q, w) ->
  exists qf wf, fl_eci2ecef_state m sq cube sum (x, y, z) (vx, vy, vz) t d xp yp = Ok (qf, wf) /\ forall i,
    Rabs (v_at qf i - v_at q i) <= rot_err t * Rmax 1 (Rabs x + Rabs y + Rabs z) /\
    Rabs (v_at wf i - v_at w i) <= rot_err t * Rmax 1 (Rabs vx + Rabs vy + Rabs vz) + (rot_err tp + rot_err tm) * Rmax 1 (Rabs x + Rabs y + Rabs z).
Proof.
  intros m sq cube sum x y z vx vy vz t d xp yp tp tm q w M P S V HD HX HY HB HV Ep Em E. unfold eci2ecef_state, state_numpy in E. destruct (eci_to_ecef_matrix t d xp yp) as [A|] eqn:EA; [|discriminate]. cbn [bind] in E.
  destruct (eci_to_ecef_matrix_rate t d xp yp 0.5) as [D|] eqn:ED; [|discriminate]. cbn [bind] in E. apply L_eci.ok_inj in E. cbn [apply_state_rotation_scalar] in E. apply pair_equal_spec in E. destruct E as [<- <-].
  destruct (proj1 (C99_rotation_defined m sq cube sum t d xp yp) (ex_intro _ A EA)) as [Af EF]. destruct (rate_near m sq cube sum t d xp yp tp tm D M P S V HD HX HY Ep Em ED) as (Df & FD & ND & LD & RD). unfold fl_eci2ecef_state. rewrite EF. cbn [bind]. rewrite FD. cbn [bind]. eexists _, _. split; [reflexivity|].
  destruct (rotation_err m sq cube sum t d xp yp A Af M P S V HD HX HY EA EF) as [N RS]. pose proof (rot_le2 A (L_eci.eci_matrix_rot t d xp yp A EA)) as LA. assert (LA2 : forall i j, Rabs (m_at A i j) <= 2.01) by (intros i j; specialize (LA i j); lra). assert (LD2 : forall i j, Rabs (m_at D i j) <= 2.01) by (intros i j; specialize (LD i j); lra). intros i.
  pose proof (matvec_near sum A Af _ x y z S LA2 N ltac:(lra) HB i) as Q1. pose proof (matvec_near sum A Af _ vx vy vz S LA2 N ltac:(lra) HV i) as Q2. pose proof (matvec_near sum D Df _ x y z S LD2 ND ltac:(lra) HB i) as Q3.
  assert (BB : forall (K : mat3) a b c, (forall i j, Rabs (m_at K i j) <= 2.01) -> Rabs (v_at (eo_matvec3 K (a, b, c)) i) <= 2.01 * Rmax 1 (Rabs a + Rabs b + Rabs c)).
  { intros K a b c HK. rewrite mv_at. cbn [v_at]. pose proof (Rmax_r 1 (Rabs a + Rabs b + Rabs c)) as MR. apply Rle_trans with (1 := Rabs_triang _ _). pose proof (Rabs_triang (m_at K i 0 * a) (m_at K i 1 * b)) as TR. rewrite !Rabs_mult in *. pose proof (Rmult_le_compat_r (Rabs a) _ _ (Rabs_pos a) (HK i 0%nat)). pose proof (Rmult_le_compat_r (Rabs b) _ _ (Rabs_pos b) (HK i 1%nat)). pose proof (Rmult_le_compat_r (Rabs c) _ _ (Rabs_pos c) (HK i 2%nat)). lra. }
  pose proof (BB A vx vy vz LA2) as B2. pose proof (BB D x y z LD2) as B3. clear BB.
  assert (TA : forall (f g : nat -> R), (forall k, (k >= 2)%nat -> f k = f 2%nat) -> (forall k, (k >= 2)%nat -> g k = g 2%nat) -> v_at (tup3 (fun i => fl_add (f i) (g i))) i = fl_add (f i) (g i)) by (intros f g Hf Hg; destruct i as [|[|i]]; cbn [v_at tup3]; [reflexivity|reflexivity|rewrite (Hf (Datatypes.S (Datatypes.S i))), (Hg (Datatypes.S (Datatypes.S i))) by lia; reflexivity]).
  assert (TB : forall (f g : nat -> R), (forall k, (k >= 2)%nat -> f k = f 2%nat) -> (forall k, (k >= 2)%nat -> g k = g 2%nat) -> v_at (tup3 (fun i => f i + g i)) i = f i + g i) by (intros f g Hf Hg; destruct i as [|[|i]]; cbn [v_at tup3]; [reflexivity|reflexivity|rewrite (Hf (Datatypes.S (Datatypes.S i))), (Hg (Datatypes.S (Datatypes.S i))) by lia; reflexivity]).
  assert (VA : forall (u : vec3) k, (k >= 2)%nat -> v_at u k = v_at u 2) by (intros u k Hk; destruct u as [[? ?] ?]; destruct k as [|[|k]]; [lia|lia|reflexivity]).
  rewrite (TA (v_at (fl_matvec3 sum Af (vx, vy, vz))) (v_at (fl_matvec3 sum Df (x, y, z))) (VA _) (VA _)), (TB (v_at (eo_matvec3 A (vx, vy, vz))) (v_at (eo_matvec3 D (x, y, z))) (VA _) (VA _)). clear TA TB VA.
  pose proof (Rmax_l 1 (Rabs x + Rabs y + Rabs z)) as MX. pose proof (Rmax_l 1 (Rabs vx + Rabs vy + Rabs vz)) as MV. set (X := Rmax 1 (Rabs x + Rabs y + Rabs z)) in *. set (Y := Rmax 1 (Rabs vx + Rabs vy + Rabs vz)) in *. clearbody X Y.
  set (r2 := v_at (eo_matvec3 A (vx, vy, vz)) i) in *. set (r3 := v_at (eo_matvec3 D (x, y, z)) i) in *. set (f2 := v_at (fl_matvec3 sum Af (vx, vy, vz)) i) in *. set (f3 := v_at (fl_matvec3 sum Df (x, y, z)) i) in *. clearbody r2 r3 f2 f3.
  set (e := rot_err t) in *. set (e2 := rot_err tp + rot_err tm) in *. clearbody e e2. pose proof uu_pos as U. pose proof uu_small as US. pose proof tny_le_1 as TN.
  assert (S2 : (e - / 10 ^ 12 + 23 * uu) * Y <= (e - 0.99 / 10 ^ 12) * Y) by (apply Rmult_le_compat_r; [lra|unfold uu; lra]). assert (S3 : (e2 - 1.9 / 10 ^ 12 + 23 * uu) * X <= (e2 - 1.8 / 10 ^ 12) * X) by (apply Rmult_le_compat_r; [lra|unfold uu; lra]).
  split; [apply Rle_trans with (1 := Q1); apply Rmult_le_compat_r; [lra|unfold uu; lra]|].
  assert (EY : 0 <= e * Y <= / 1000 * Y) by (split; [apply Rmult_le_pos; lra|apply Rmult_le_compat_r; lra]). assert (EX : 0 <= e2 * X <= / 1000 * X) by (split; [apply Rmult_le_pos; lra|apply Rmult_le_compat_r; lra]).
  apply Rabs_le_inv in Q2, Q3, B2, B3. assert (FB : Rabs (f2 + f3) <= 2.1 * (X + Y)) by (apply Rabs_le; lra). pose proof (rnd_err (f2 + f3) (2.1 * (X + Y)) FB ltac:(lra)) as Q. change (rnd (f2 + f3)) with (fl_add f2 f3) in Q. apply Rabs_le_inv in Q. apply Rabs_le. assert (UX : uu * X <= / 1000000000000000 * X) by (apply Rmult_le_compat_r; lra). assert (UY : uu * Y <= / 1000000000000000 * Y) by (apply Rmult_le_compat_r; lra). lra.
Qed.
Lemma rotation_self m sq cube sum t d xp yp Af : trig_ok m -> pow_ok sq cube -> sum_ok sum -> valid_dt t -> Rabs d <= 1000 -> Rabs xp <= 100000 -> Rabs yp <= 100000 ->
  fl_eci_to_ecef_matrix m sq cube sum t d xp yp = Ok Af -> exists K, is_rotation K /\ mnear (1390 * uu) Af K.
Proof.
  intros M P S V HD HX HY Ef. destruct (proj2 (C99_rotation_defined m sq cube sum t d xp yp) (ex_intro _ Af Ef)) as [A Es]. unfold eci_to_ecef_matrix in Es. unfold fl_eci_to_ecef_matrix in Ef.
  destruct (utc_to_tt t) as [v|e] eqn:ET; [|destruct (bind (utc_with_offset t d) juliandate); discriminate]. destruct (utc_with_offset t d) as [u|e] eqn:EU; [|discriminate]. cbn [bind] in Es, Ef.
  destruct (juliandate u) as [j1|] eqn:J1; [|discriminate]. destruct (juliandate v) as [j2|] eqn:J2; [|discriminate]. destruct (fl_juliandate u) as [j1f|] eqn:F1; [|discriminate]. destruct (fl_juliandate v) as [j2f|] eqn:F2; [|discriminate]. cbn [bind] in Es, Ef. clear Es. injection Ef as <-.
  destruct (times_err sq cube t d u v j1 j1f j2 j2f P V HD EU ET J1 J2 F1 F2) as (HT & N1 & A2). set (T := centuries t) in *. set (b := datestep t) in *. clearbody T b.
  destruct (gast_err m sq cube j1f j1 j2f j2 (T + 1 / 1000000) _ M P ltac:(lra) N1 A2) as [_ NB].
  assert (DG : double (fl_apparent_sidereal_time m sq cube j1f j2f)). { unfold fl_apparent_sidereal_time. pose proof tau_pos. apply C56_mod_range; [apply rnd_double|apply rnd_double|lra]. }
  assert (DF : double (fl_julian_centuries j2f)) by apply rnd_double. exact (whole_self m sq cube sum _ _ (T + 1 / 1000000) M P S ltac:(lra) DF A2 _ xp yp DG NB HX HY).
Qed.
(** There and back with a matrix close to a rotation. *)
Lemma there_and_back sum Kf K x y z : sum_ok sum -> is_rotation K -> mnear (1390 * uu) Kf K -> Rabs x + Rabs y + Rabs z <= 10 ^ 13 ->
  forall i, Rabs (v_at (fl_matvec3 sum (eo_transpose3 Kf) (fl_matvec3 sum Kf (x, y, z))) i - v_at (x, y, z) i) <= 5.5 / 10 ^ 13 * Rmax 1 (Rabs x + Rabs y + Rabs z).
Proof.
  intros S RK N HB i. pose proof (rot_le2 K RK) as LK. assert (LK2 : forall i j, Rabs (m_at K i j) <= 2.01) by (intros a b; specialize (LK a b); lra). pose proof uu_pos as U. pose proof uu_small as US.
  pose proof (matvec_near sum K Kf _ x y z S LK2 N ltac:(lra) ltac:(lra)) as Q1. pose proof (fun i => mv_at K (x, y, z) i) as MV. cbn [v_at] in MV.
  pose proof (L_frames.transpose_rotation K RK) as RT. assert (LT2 : forall i j, Rabs (m_at (transpose3 K) i j) <= 2.01) by (intros a b; pose proof (rot_le2 _ RT a b); lra). assert (NT : mnear (1390 * uu) (eo_transpose3 Kf) (transpose3 K)) by (intros a b; change eo_transpose3 with transpose3; rewrite !tr_at; apply N).
  pose proof (L_frames.rot_transpose_vec K (x, y, z) RK) as BK.
  destruct (rot_col K 0 RK) as (_ & _ & _ & C0). destruct (rot_col K 1 RK) as (_ & _ & _ & C1). destruct (rot_col K 2 RK) as (_ & _ & _ & C2).
  destruct (fl_matvec3 sum Kf (x, y, z)) as [[xf yf] zf] eqn:EF. destruct (matvec3 K (x, y, z)) as [[xe ye] ze] eqn:EE. change eo_matvec3 with matvec3 in *. rewrite EE in *.
  pose proof (Q1 0%nat) as E0. pose proof (Q1 1%nat) as E1. pose proof (Q1 2%nat) as E2. pose proof (MV 0%nat) as V0. pose proof (MV 1%nat) as V1. pose proof (MV 2%nat) as V2. cbn [v_at] in E0, E1, E2, V0, V1, V2.
  pose proof (Rmax_l 1 (Rabs x + Rabs y + Rabs z)) as M1. pose proof (Rmax_r 1 (Rabs x + Rabs y + Rabs z)) as M2. assert (M3 : Rmax 1 (Rabs x + Rabs y + Rabs z) <= 10 ^ 13) by (apply Rmax_lub; lra). set (W := Rmax 1 (Rabs x + Rabs y + Rabs z)) in *. clearbody W. clear Q1 MV.
  assert (UW : uu * W <= / 1000000000000000 * W) by (apply Rmult_le_compat_r; lra).
  assert (SE : Rabs xe + Rabs ye + Rabs ze <= 1.7321 * W).
  { assert (T3 : forall a b c, Rabs (a + b + c) <= Rabs a + Rabs b + Rabs c) by (intros a b c; pose proof (Rabs_triang (a + b) c); pose proof (Rabs_triang a b); lra).
    pose proof (T3 (m_at K 0 0 * x) (m_at K 0 1 * y) (m_at K 0 2 * z)) as X0. pose proof (T3 (m_at K 1 0 * x) (m_at K 1 1 * y) (m_at K 1 2 * z)) as X1. pose proof (T3 (m_at K 2 0 * x) (m_at K 2 1 * y) (m_at K 2 2 * z)) as X2. rewrite <- V0 in X0. rewrite <- V1 in X1. rewrite <- V2 in X2. rewrite !Rabs_mult in X0, X1, X2.
    pose proof (Rmult_le_compat_r (Rabs x) _ _ (Rabs_pos x) C0). pose proof (Rmult_le_compat_r (Rabs y) _ _ (Rabs_pos y) C1). pose proof (Rmult_le_compat_r (Rabs z) _ _ (Rabs_pos z) C2). lra. }
  assert (SF : Rabs xf + Rabs yf + Rabs zf <= 1.7322 * W).
  { assert (T2 : forall a b, Rabs a <= Rabs (a - b) + Rabs b) by (intros a b; replace a with ((a - b) + b) at 1 by ring; apply Rabs_triang). pose proof (T2 xf xe). pose proof (T2 yf ye). pose proof (T2 zf ze). lra. }
  pose proof (matvec_near sum (transpose3 K) (eo_transpose3 Kf) _ xf yf zf S LT2 NT ltac:(lra) ltac:(lra) i) as Q2. assert (MX : Rmax 1 (Rabs xf + Rabs yf + Rabs zf) <= 1.7322 * W) by (apply Rmax_lub; lra).
  assert (Q2' : (1390 * uu + 23 * uu) * Rmax 1 (Rabs xf + Rabs yf + Rabs zf) <= (1390 * uu + 23 * uu) * (1.7322 * W)) by (apply Rmult_le_compat_l; lra).
  rewrite <- BK. rewrite mv_at in Q2. change matvec3 with eo_matvec3. rewrite mv_at. cbn [v_at] in *. destruct (rot_row _ i RT) as (_ & _ & _ & CT).
  set (f := v_at (fl_matvec3 sum (eo_transpose3 Kf) (xf, yf, zf)) i) in *. clearbody f. set (a := m_at (transpose3 K) i 0) in *. set (b := m_at (transpose3 K) i 1) in *. set (c := m_at (transpose3 K) i 2) in *. clearbody a b c.
  assert (L : Rabs (a * (xf - xe) + b * (yf - ye) + c * (zf - ze)) <= 1.7321 * ((1390 * uu + 23 * uu) * W)).
  { pose proof (Rabs_triang (a * (xf - xe) + b * (yf - ye)) (c * (zf - ze))) as T1. pose proof (Rabs_triang (a * (xf - xe)) (b * (yf - ye))) as T2. rewrite !Rabs_mult in *. set (k := (1390 * uu + 23 * uu) * W) in *. assert (k0 : 0 <= k) by (pose proof (Rabs_pos (xf - xe)); lra).
    pose proof (Rmult_le_compat_l (Rabs a) _ _ (Rabs_pos a) E0). pose proof (Rmult_le_compat_l (Rabs b) _ _ (Rabs_pos b) E1). pose proof (Rmult_le_compat_l (Rabs c) _ _ (Rabs_pos c) E2). pose proof (Rmult_le_compat_r k _ _ k0 CT). lra. }
  replace (f - (a * xe + b * ye + c * ze)) with ((f - (a * xf + b * yf + c * zf)) + (a * (xf - xe) + b * (yf - ye) + c * (zf - ze))) by ring. apply Rle_trans with (1 := Rabs_triang _ _). unfold uu in *. lra.
Qed.
(** Converting and converting back, both in binary64: far more accurate than either conversion, because both use the same nearly orthogonal matrix. *)
Theorem C99_roundtrip : forall m sq cube sum x y z t d xp yp, trig_ok m -> pow_ok sq cube -> sum_ok sum -> valid_dt t -> Rabs d <= 1000 -> Rabs xp <= 100000 -> Rabs yp <= 100000 -> Rabs x + Rabs y + Rabs z <= 10 ^ 13 ->
  (forall p, fl_eci2ecef m sq cube sum x y z t d xp yp = Ok p -> exists q, fl_ecef2eci m sq cube sum (v_at p 0) (v_at p 1) (v_at p 2) t d xp yp = Ok q /\ forall i, Rabs (v_at q i - v_at (x, y, z) i) <= 5.5 / 10 ^ 13 * Rmax 1 (Rabs x + Rabs y + Rabs z)) /\
  (forall p, fl_ecef2eci m sq cube sum x y z t d xp yp = Ok p -> exists q, fl_eci2ecef m sq cube sum (v_at p 0) (v_at p 1) (v_at p 2) t d xp yp = Ok q /\ forall i, Rabs (v_at q i - v_at (x, y, z) i) <= 5.5 / 10 ^ 13 * Rmax 1 (Rabs x + Rabs y + Rabs z)).
Proof.
  intros m sq cube sum x y z t d xp yp M P S V HD HX HY HB. assert (VE : forall p : vec3, (v_at p 0, v_at p 1, v_at p 2) = p) by (intros [[? ?] ?]; reflexivity). unfold fl_eci2ecef, fl_ecef2eci.
  destruct (fl_eci_to_ecef_matrix m sq cube sum t d xp yp) as [Af|] eqn:EF; [|split; intros p E; discriminate]. destruct (rotation_self m sq cube sum t d xp yp Af M P S V HD HX HY EF) as (K & RK & N). cbn [bind].
  split; intros p E; injection E as <-; eexists; (split; [reflexivity|]); rewrite VE; intros i; [exact (there_and_back sum Af K x y z S RK N HB i)|].
  assert (NT : mnear (1390 * uu) (eo_transpose3 Af) (transpose3 K)) by (intros a b; change eo_transpose3 with transpose3; rewrite !tr_at; apply N).
  pose proof (there_and_back sum (eo_transpose3 Af) (transpose3 K) x y z S (L_frames.transpose_rotation K RK) NT HB i) as Q. assert (TT : eo_transpose3 (eo_transpose3 Af) = Af) by (destruct Af as [[[[? ?] ?] [[? ?] ?]] [[? ?] ?]]; reflexivity). rewrite TT in Q. exact Q.
Qed.
(** The same for states.  First: undoing the rotation of a vector known to [h] in every component. *)
Lemma undo sum Kf K vx vy vz ux uy uz h Z : sum_ok sum -> is_rotation K -> mnear (1390 * uu) Kf K -> Rmax 1 (Rabs vx + Rabs vy + Rabs vz) <= Z -> 0 <= h <= / 1000 * Z -> Z <= 10 ^ 13 ->
  Rabs (ux - v_at (matvec3 K (vx, vy, vz)) 0) <= h -> Rabs (uy - v_at (matvec3 K (vx, vy, vz)) 1) <= h -> Rabs (uz - v_at (matvec3 K (vx, vy, vz)) 2) <= h ->
  forall i, Rabs (v_at (fl_matvec3 sum (eo_transpose3 Kf) (ux, uy, uz)) i - v_at (vx, vy, vz) i) <= 1.7321 * h + 1413 * uu * (1.7321 * Rmax 1 (Rabs vx + Rabs vy + Rabs vz) + 3 * h).
Proof.
  intros S RK N HZ Hh HB E0 E1 E2 i. pose proof uu_pos as U. pose proof uu_small as US. pose proof (fun i => mv_at K (vx, vy, vz) i) as MV. cbn [v_at] in MV.
  pose proof (L_frames.transpose_rotation K RK) as RT. assert (LT2 : forall i j, Rabs (m_at (transpose3 K) i j) <= 2.01) by (intros a b; pose proof (rot_le2 _ RT a b); lra). assert (NT : mnear (1390 * uu) (eo_transpose3 Kf) (transpose3 K)) by (intros a b; change eo_transpose3 with transpose3; rewrite !tr_at; apply N).
  pose proof (L_frames.rot_transpose_vec K (vx, vy, vz) RK) as BK. destruct (rot_col K 0 RK) as (_ & _ & _ & C0). destruct (rot_col K 1 RK) as (_ & _ & _ & C1). destruct (rot_col K 2 RK) as (_ & _ & _ & C2).
  change eo_matvec3 with matvec3 in *. destruct (matvec3 K (vx, vy, vz)) as [[xe ye] ze] eqn:EE. pose proof (MV 0%nat) as V0. pose proof (MV 1%nat) as V1. pose proof (MV 2%nat) as V2. cbn [v_at] in E0, E1, E2, V0, V1, V2. clear MV.
  pose proof (Rmax_l 1 (Rabs vx + Rabs vy + Rabs vz)) as M1. pose proof (Rmax_r 1 (Rabs vx + Rabs vy + Rabs vz)) as M2. set (W := Rmax 1 (Rabs vx + Rabs vy + Rabs vz)) in *. clearbody W.
  assert (SE : Rabs xe + Rabs ye + Rabs ze <= 1.7321 * W).
  { assert (T3 : forall a b c, Rabs (a + b + c) <= Rabs a + Rabs b + Rabs c) by (intros a b c; pose proof (Rabs_triang (a + b) c); pose proof (Rabs_triang a b); lra).
    pose proof (T3 (m_at K 0 0 * vx) (m_at K 0 1 * vy) (m_at K 0 2 * vz)) as X0. pose proof (T3 (m_at K 1 0 * vx) (m_at K 1 1 * vy) (m_at K 1 2 * vz)) as X1. pose proof (T3 (m_at K 2 0 * vx) (m_at K 2 1 * vy) (m_at K 2 2 * vz)) as X2. rewrite <- V0 in X0. rewrite <- V1 in X1. rewrite <- V2 in X2. rewrite !Rabs_mult in X0, X1, X2.
    pose proof (Rmult_le_compat_r (Rabs vx) _ _ (Rabs_pos vx) C0). pose proof (Rmult_le_compat_r (Rabs vy) _ _ (Rabs_pos vy) C1). pose proof (Rmult_le_compat_r (Rabs vz) _ _ (Rabs_pos vz) C2). lra. }
  assert (SF : Rabs ux + Rabs uy + Rabs uz <= 1.7321 * W + 3 * h).
  { assert (T2 : forall a b, Rabs a <= Rabs (a - b) + Rabs b) by (intros a b; replace a with ((a - b) + b) at 1 by ring; apply Rabs_triang). pose proof (T2 ux xe). pose proof (T2 uy ye). pose proof (T2 uz ze). lra. }
  pose proof (matvec_near sum (transpose3 K) (eo_transpose3 Kf) _ ux uy uz S LT2 NT ltac:(lra) ltac:(lra) i) as Q2. assert (MX : Rmax 1 (Rabs ux + Rabs uy + Rabs uz) <= 1.7321 * W + 3 * h) by (apply Rmax_lub; lra).
  assert (Q2' : (1390 * uu + 23 * uu) * Rmax 1 (Rabs ux + Rabs uy + Rabs uz) <= (1390 * uu + 23 * uu) * (1.7321 * W + 3 * h)) by (apply Rmult_le_compat_l; lra).
  rewrite <- BK. rewrite mv_at in Q2. change matvec3 with eo_matvec3. rewrite mv_at. cbn [v_at] in *. destruct (rot_row _ i RT) as (_ & _ & _ & CT).
  set (f := v_at (fl_matvec3 sum (eo_transpose3 Kf) (ux, uy, uz)) i) in *. clearbody f. set (a := m_at (transpose3 K) i 0) in *. set (b := m_at (transpose3 K) i 1) in *. set (c := m_at (transpose3 K) i 2) in *. clearbody a b c.
  assert (L : Rabs (a * (ux - xe) + b * (uy - ye) + c * (uz - ze)) <= 1.7321 * h).
  { pose proof (Rabs_triang (a * (ux - xe) + b * (uy - ye)) (c * (uz - ze))) as T1. pose proof (Rabs_triang (a * (ux - xe)) (b * (uy - ye))) as T2. rewrite !Rabs_mult in *.
    pose proof (Rmult_le_compat_l (Rabs a) _ _ (Rabs_pos a) E0). pose proof (Rmult_le_compat_l (Rabs b) _ _ (Rabs_pos b) E1). pose proof (Rmult_le_compat_l (Rabs c) _ _ (Rabs_pos c) E2). pose proof (Rmult_le_compat_r h _ _ (proj1 Hh) CT). lra. }
  replace (f - (a * xe + b * ye + c * ze)) with ((f - (a * ux + b * uy + c * uz)) + (a * (ux - xe) + b * (uy - ye) + c * (uz - ze))) by ring. apply Rle_trans with (1 := Rabs_triang _ _). lra.
Qed.
Lemma rot_vec_le K a b c i : is_rotation K -> Rabs (v_at (eo_matvec3 K (a, b, c)) i) <= Rabs a + Rabs b + Rabs c.
Proof.
  intros RK. rewrite mv_at. cbn [v_at]. destruct (rot_row K i RK) as (A0 & A1 & A2 & _). pose proof (Rabs_triang (m_at K i 0 * a + m_at K i 1 * b) (m_at K i 2 * c)) as T1. pose proof (Rabs_triang (m_at K i 0 * a) (m_at K i 1 * b)) as T2. rewrite !Rabs_mult in *.
  pose proof (Rmult_le_compat_r (Rabs a) _ _ (Rabs_pos a) A0). pose proof (Rmult_le_compat_r (Rabs b) _ _ (Rabs_pos b) A1). pose proof (Rmult_le_compat_r (Rabs c) _ _ (Rabs_pos c) A2). lra.
Qed.
Lemma self_mnear A : mnear 0 A A. Proof. intros i j. replace (m_at A i j - m_at A i j) with 0 by ring. rewrite Rabs_R0. lra. Qed.
Lemma state_back sum Kf K Df x y z vx vy vz : sum_ok sum -> is_rotation K -> mnear (1390 * uu) Kf K -> (forall i j, Rabs (m_at Df i j) <= 2.01) -> Rabs x + Rabs y + Rabs z <= 10 ^ 12 -> Rabs vx + Rabs vy + Rabs vz <= 10 ^ 12 ->
  let p := (x, y, z) in let v := (vx, vy, vz) in let X := Rmax 1 (Rabs x + Rabs y + Rabs z) in let Y := Rmax 1 (Rabs vx + Rabs vy + Rabs vz) in
  let w k := fl_add (v_at (fl_matvec3 sum Kf v) k) (v_at (fl_matvec3 sum Df p) k) in
  let c := fl_matvec3 sum Df (fl_matvec3 sum (eo_transpose3 Kf) (fl_matvec3 sum Kf p)) in
  forall i, Rabs (v_at (fl_matvec3 sum (eo_transpose3 Kf) (fl_sub (w 0%nat) (v_at c 0), fl_sub (w 1%nat) (v_at c 1), fl_sub (w 2%nat) (v_at c 2))) i - v_at v i) <= 6 / 10 ^ 13 * Y + 6 / 10 ^ 12 * X.
Proof.
  intros S RK N LD HB HV p v X Y w c i. pose proof uu_pos as U. pose proof uu_small as US. pose proof tny_le_1 as TN. pose proof (there_and_back sum Kf K x y z S RK N ltac:(lra)) as TB. fold p in TB. fold X in TB.
  assert (LK2 : forall i j, Rabs (m_at K i j) <= 2.01) by (intros a b; pose proof (rot_le2 K RK a b); lra).
  pose proof (matvec_near sum K Kf _ vx vy vz S LK2 N ltac:(lra) ltac:(lra)) as QV. fold v Y in QV. pose proof (matvec_near sum Df Df 0 x y z S LD (self_mnear Df) ltac:(lra) ltac:(lra)) as QS. fold p X in QS.
  assert (X1 : 1 <= X) by apply Rmax_l. assert (Y1 : 1 <= Y) by apply Rmax_l. assert (X2 : Rabs x + Rabs y + Rabs z <= X) by apply Rmax_r. assert (Y2 : Rabs vx + Rabs vy + Rabs vz <= Y) by apply Rmax_r. assert (X3 : X <= 10 ^ 12) by (apply Rmax_lub; lra). assert (Y3 : Y <= 10 ^ 12) by (apply Rmax_lub; lra).
  destruct (fl_matvec3 sum (eo_transpose3 Kf) (fl_matvec3 sum Kf p)) as [[qx qy] qz] eqn:EQ. pose proof (TB 0%nat) as T0. pose proof (TB 1%nat) as T1. pose proof (TB 2%nat) as T2. unfold p in T0, T1, T2. cbn [v_at] in T0, T1, T2.
  assert (QB : Rabs qx + Rabs qy + Rabs qz <= 1.01 * X). { assert (T : forall a b, Rabs a <= Rabs (a - b) + Rabs b) by (intros a b; replace a with ((a - b) + b) at 1 by ring; apply Rabs_triang). pose proof (T qx x). pose proof (T qy y). pose proof (T qz z). lra. }
  pose proof (matvec_near sum Df Df 0 qx qy qz S LD (self_mnear Df) ltac:(lra) ltac:(lra)) as QC. assert (QM : Rmax 1 (Rabs qx + Rabs qy + Rabs qz) <= 1.01 * X) by (apply Rmax_lub; lra).
  assert (UX : 0 < uu * X <= / 1000000000000000 * X) by (split; [apply Rmult_lt_0_compat; lra|apply Rmult_le_compat_r; lra]). assert (UY : 0 < uu * Y <= / 1000000000000000 * Y) by (split; [apply Rmult_lt_0_compat; lra|apply Rmult_le_compat_r; lra]).
  assert (ET : forall k, Rabs (fl_sub (w k) (v_at c k) - v_at (matvec3 K v) k) <= 1420 * (uu * Y) + 3.4 / 10 ^ 12 * X).
  { intros k. pose proof (QV k) as V. pose proof (QS k) as S1. pose proof (QC k) as C1. fold c in C1. rewrite !mv_at in S1, C1. unfold p in S1. cbn [v_at] in S1, C1. pose proof (LD k 0%nat) as L0. pose proof (LD k 1%nat) as L1. pose proof (LD k 2%nat) as L2.
    assert (CB : (0 + 23 * uu) * Rmax 1 (Rabs qx + Rabs qy + Rabs qz) <= 23.5 * (uu * X)) by (apply Rle_trans with ((0 + 23 * uu) * (1.01 * X)); [apply Rmult_le_compat_l; lra|lra]).
    pose proof (rot_vec_le K vx vy vz k RK) as KB. fold v in KB. change eo_matvec3 with matvec3 in *. unfold w. set (rv := v_at (fl_matvec3 sum Kf v) k) in *. set (sp := v_at (fl_matvec3 sum Df (x, y, z)) k) in *. change (v_at (fl_matvec3 sum Df p) k) with sp. set (ck := v_at c k) in *. set (kv := v_at (matvec3 K v) k) in *. clearbody rv sp ck kv.
    set (d0 := m_at Df k 0) in *. set (d1 := m_at Df k 1) in *. set (d2 := m_at Df k 2) in *. clearbody d0 d1 d2.
    assert (DP : forall a b, Rabs a <= 2.01 -> Rabs (a * b) <= 2.01 * Rabs b) by (intros a b Ha; rewrite Rabs_mult; apply Rmult_le_compat_r; [apply Rabs_pos|exact Ha]).
    assert (DD : Rabs (d0 * (qx - x) + d1 * (qy - y) + d2 * (qz - z)) <= 2.01 * (3 * (5.5 / 10 ^ 13 * X))). { pose proof (DP d0 (qx - x) L0). pose proof (DP d1 (qy - y) L1). pose proof (DP d2 (qz - z) L2). pose proof (Rabs_triang (d0 * (qx - x) + d1 * (qy - y)) (d2 * (qz - z))). pose proof (Rabs_triang (d0 * (qx - x)) (d1 * (qy - y))). lra. }
    assert (DX : Rabs (d0 * x + d1 * y + d2 * z) <= 2.01 * X). { pose proof (DP d0 x L0). pose proof (DP d1 y L1). pose proof (DP d2 z L2). pose proof (Rabs_triang (d0 * x + d1 * y) (d2 * z)). pose proof (Rabs_triang (d0 * x) (d1 * y)). lra. }
    replace (d0 * qx + d1 * qy + d2 * qz) with ((d0 * (qx - x) + d1 * (qy - y) + d2 * (qz - z)) + (d0 * x + d1 * y + d2 * z)) in C1 by ring. set (dd := d0 * (qx - x) + d1 * (qy - y) + d2 * (qz - z)) in *. set (dx := d0 * x + d1 * y + d2 * z) in *. clearbody dd dx.
    apply Rabs_le_inv in V, S1, C1, DD, DX. assert (KB' : - Y <= kv <= Y) by (apply Rabs_le_inv; lra). clear KB.
    assert (F1 : Rabs (rv + sp) <= 2.1 * (X + Y)) by (apply Rabs_le; lra). pose proof (rnd_err (rv + sp) (2.1 * (X + Y)) F1 ltac:(lra)) as G1. change (rnd (rv + sp)) with (fl_add rv sp) in G1. set (wk := fl_add rv sp) in *. clearbody wk. apply Rabs_le_inv in G1.
    assert (F2 : Rabs (wk - ck) <= 1.1 * (X + Y)) by (apply Rabs_le; lra). pose proof (rnd_err (wk - ck) (1.1 * (X + Y)) F2 ltac:(lra)) as G2. change (rnd (wk - ck)) with (fl_sub wk ck) in G2. set (u := fl_sub wk ck) in *. clearbody u. apply Rabs_le_inv in G2. apply Rabs_le. lra. }
  set (h := 1420 * (uu * Y) + 3.4 / 10 ^ 12 * X) in *. assert (Hh : 0 <= h <= / 1000 * (X + Y)) by (unfold h; lra).
  pose proof (undo sum Kf K vx vy vz _ _ _ h (X + Y) S RK N ltac:(fold Y; lra) Hh ltac:(lra) (ET 0%nat) (ET 1%nat) (ET 2%nat) i) as Q. fold Y v in Q. apply Rle_trans with (1 := Q). unfold h. unfold uu in *. lra.
Qed.
Theorem C99_state_roundtrip : forall m sq cube sum x y z vx vy vz t d xp yp tp tm p' v', trig_ok m -> pow_ok sq cube -> sum_ok sum -> valid_dt t -> Rabs d <= 1000 -> Rabs xp <= 100000 -> Rabs yp <= 100000 ->
  Rabs x + Rabs y + Rabs z <= 10 ^ 12 -> Rabs vx + Rabs vy + Rabs vz <= 10 ^ 12 -> dt_add t 500000 = Ok tp -> dt_add t (-500000) = Ok tm ->
  fl_eci2ecef_state m sq cube sum (x, y, z) (vx, vy, vz) t d xp yp = Ok (p', v') ->
  exists q w, fl_ecef2eci_state m sq cube sum p' v' t d xp yp = Ok (q, w) /\ forall i,
    Rabs (v_at q i - v_at (x, y, z) i) <= 5.5 / 10 ^ 13 * Rmax 1 (Rabs x + Rabs y + Rabs z) /\
    Rabs (v_at w i - v_at (vx, vy, vz) i) <= 6 / 10 ^ 13 * Rmax 1 (Rabs vx + Rabs vy + Rabs vz) + 6 / 10 ^ 12 * Rmax 1 (Rabs x + Rabs y + Rabs z).
Proof.
  intros m sq cube sum x y z vx vy vz t d xp yp tp tm p' v' M P S V HD HX HY HB HV Ep Em E. unfold fl_eci2ecef_state in E. unfold fl_ecef2eci_state.
  destruct (fl_eci_to_ecef_matrix m sq cube sum t d xp yp) as [Af|] eqn:EF; [|discriminate]. destruct (rotation_self m sq cube sum t d xp yp Af M P S V HD HX HY EF) as (K & RK & N). cbn [bind] in *.
  destruct (fl_eci_to_ecef_matrix_rate m sq cube sum t d xp yp) as [Df|] eqn:ED; [|discriminate]. cbn [bind] in *. apply L_eci.ok_inj in E. apply pair_equal_spec in E. destruct E as [<- <-].
  assert (LD : forall i j, Rabs (m_at Df i j) <= 2.01).
  { destruct (eci_to_ecef_matrix_rate t d xp yp 0.5) as [D|] eqn:EX.
    - destruct (rate_near m sq cube sum t d xp yp tp tm D M P S V HD HX HY Ep Em EX) as (Df' & FD & ND & LD & RD). rewrite ED in FD. apply L_eci.ok_inj in FD. subst Df'. intros i j. pose proof (ND i j) as N1. pose proof (LD i j) as N2. apply Rabs_le_inv in N1, N2. apply Rabs_le. lra.
    - exfalso. unfold eci_to_ecef_matrix_rate in EX. unfold fl_eci_to_ecef_matrix_rate in ED. assert (H5 : timedelta_seconds 0.5 = 500000%Z) by (unfold timedelta_seconds; replace (0.5 * 1000000) with (IZR 500000) by lra; apply L_earth.round_half_even_int). rewrite H5 in *. change (Z.opp 500000) with (-500000)%Z in *. rewrite Ep, Em in *. cbn [bind] in *.
      destruct (fl_eci_to_ecef_matrix m sq cube sum tp d xp yp) as [Bf|] eqn:EB; [|discriminate]. destruct (fl_eci_to_ecef_matrix m sq cube sum tm d xp yp) as [Cf|] eqn:EC; [|discriminate].
      destruct (proj2 (C99_rotation_defined m sq cube sum tp d xp yp) (ex_intro _ Bf EB)) as [B FB]. destruct (proj2 (C99_rotation_defined m sq cube sum tm d xp yp) (ex_intro _ Cf EC)) as [C FC]. rewrite FB, FC in EX. discriminate. }
  eexists _, _. split; [reflexivity|]. intros i. split; [exact (there_and_back sum Af K x y z S RK N ltac:(lra) i)|]. exact (state_back sum Af K Df x y z vx vy vz S RK N LD HB HV i).
Qed.
(** The same datetime as for [C99_datetime2sidereal], a satellite at 7000 km; plain summation qualifies ([plain_sum_ok]). *)
Example C99_eci2ecef_hypotheses_met : sum_ok (fun a b c => fl_add (fl_add (fl_add 0 a) b) c) /\ Rabs 3000000 + Rabs (-5000000) + Rabs 4000000 <= 10 ^ 14 /\
  exists p, eci2ecef 3000000 (-5000000) 4000000 (utc_at 2024 2 29 18 0 0 0) 0.1 0.2 0.3 = Ok p.
Proof.
  split; [exact plain_sum_ok|]. split; [rewrite (Rabs_left (-5000000)), !Rabs_pos_eq by lra; lra|]. destruct C99_datetime2sidereal_hypotheses_met as (_ & V & _).
  destruct (P_eci.matrix_defined (utc_at 2024 2 29 18 0 0 0) 0.1 0.2 0.3 V) as [A E]; [|rewrite Rabs_pos_eq; lra|unfold eci2ecef; rewrite E; cbn [bind]; eexists; reflexivity].
  rewrite L_time.first_instant_eq, L_time.last_instant_eq. unfold instant, utc_at. cbn [year month day hour minute second microsecond tzinfo]. rewrite <- L_time.ymd2ord_day_number by lia. vm_compute. intuition discriminate.
Qed.
Example C99_state_hypotheses_met : exists tp tm s, dt_add (utc_at 2024 2 29 18 0 0 0) 500000 = Ok tp /\ dt_add (utc_at 2024 2 29 18 0 0 0) (-500000) = Ok tm /\
  eci2ecef_state (3000000, -5000000, 4000000) (1000, 2000, 7000) (utc_at 2024 2 29 18 0 0 0) 0.1 0.2 0.3 = Ok s.
Proof.
  destruct C99_datetime2sidereal_hypotheses_met as (_ & V & _). destruct (P_eci.C19_defined (3000000, -5000000, 4000000) (1000, 2000, 7000) (utc_at 2024 2 29 18 0 0 0) 0.1 0.2 0.3 V) as (s & _ & E & _);
    [rewrite L_time.first_instant_eq, L_time.last_instant_eq; unfold instant, utc_at; cbn [year month day hour minute second microsecond tzinfo]; rewrite <- L_time.ymd2ord_day_number by lia; vm_compute; intuition discriminate|cbn; auto|rewrite Rabs_pos_eq; lra|].
  eexists _, _, s. split; [vm_compute; reflexivity|]. split; [vm_compute; reflexivity|]. exact E.
Qed.
