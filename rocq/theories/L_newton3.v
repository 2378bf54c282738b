(** The longitude correction of Karney's solver as a function of the longitude on
    the auxiliary sphere: its size and its rate of change. *)
From Coq Require Import Reals Lra Lia Psatz.
From Coquelicot Require Import Coquelicot.
From Verif Require Import PyMath M_karney L_PyMath L_karney L_karney5 L_series1 L_series3 L_vincenty3 L_vin1 L_vin3 L_newton1.
From Verif Require L_vincenty2.
Open Scope R_scope.

(** ** Functions of bounded size and rate *)
Section Calc.
Variables (o s : R).
Hypothesis S0 : 0 < s <= 1.
(** bounded, with a rate of at most D / s *)
Definition At (B D : R) (F : R -> R) : Prop := Rabs (F o) <= B /\ exists d, is_derive F o d /\ Rabs d <= D / s.
(** of the size of s, with a bounded rate *)
Definition Bt (B D : R) (F : R -> R) : Prop := Rabs (F o) <= B * s /\ exists d, is_derive F o d /\ Rabs d <= D.
Let i0 : 0 < / s. Proof. apply Rinv_0_lt_compat; lra. Qed.
Lemma At_le B D B' D' F : At B D F -> B <= B' -> D <= D' -> At B' D' F.
Proof. intros (X & d & Y & Z) P Q. split; [lra|]. exists d. split; [exact Y|]. unfold Rdiv in *. nra. Qed.
Lemma Bt_le B D B' D' F : Bt B D F -> B <= B' -> D <= D' -> Bt B' D' F.
Proof. intros (X & d & Y & Z) P Q. split; [nra|]. exists d. split; [exact Y|lra]. Qed.
Lemma At_cst c B : Rabs c <= B -> At B 0 (fun _ => c).
Proof. intros H. split; [exact H|]. exists 0. split; [apply (is_derive_const c)|rewrite Rabs_R0; unfold Rdiv; lra]. Qed.
Lemma At_pos c : 0 <= c -> At c 0 (fun _ => c).
Proof. intros H. apply At_cst. rewrite Rabs_right; lra. Qed.
Lemma At_neg c : c <= 0 -> At (- c) 0 (fun _ => c).
Proof. intros H. apply At_cst. rewrite Rabs_left1; lra. Qed.
Lemma At_add B D F B' D' G : At B D F -> At B' D' G -> At (B + B') (D + D') (fun t => F t + G t).
Proof.
  intros (X & d & Y & Z) (X' & d' & Y' & Z'). split; [eapply Rle_trans; [apply Rabs_triang|lra]|]. exists (d + d'). split; [exact (is_derive_plus F G o d d' Y Y')|].
  eapply Rle_trans; [apply Rabs_triang|]. unfold Rdiv in *. lra.
Qed.
Lemma At_opp B D F : At B D F -> At B D (fun t => - F t).
Proof. intros (X & d & Y & Z). split; [now rewrite Rabs_Ropp|]. exists (- d). split; [exact (is_derive_opp F o d Y)|now rewrite Rabs_Ropp]. Qed.
Lemma At_sub B D F B' D' G : At B D F -> At B' D' G -> At (B + B') (D + D') (fun t => F t - G t).
Proof. intros H H'. apply (At_add B D F B' D' (fun t => - G t) H). now apply At_opp. Qed.
Lemma At_mul B D F B' D' G : At B D F -> At B' D' G -> At (B * B') (D * B' + B * D') (fun t => F t * G t).
Proof.
  intros (X & d & Y & Z) (X' & d' & Y' & Z'). split; [now apply L_vincenty2.Rabs_mul_le|]. exists (d * G o + F o * d'). split; [apply (is_derive_mult F G o d d' Y Y'); intros; apply Rmult_comm|].
  eapply Rle_trans; [apply Rabs_triang|]. pose proof (L_vincenty2.Rabs_mul_le _ _ _ _ Z X'). pose proof (L_vincenty2.Rabs_mul_le _ _ _ _ X Z'). unfold Rdiv in *. nra.
Qed.
Lemma At_pow B D F k : At B D F -> At (B ^ k) (match k with O => 0 | S j => INR k * B ^ j * D end) (fun t => F t ^ k).
Proof.
  intros H. induction k as [|k IH]; [apply (At_pos 1); lra|]. pose proof (At_mul _ _ _ _ _ _ H IH) as M. apply At_le with (1 := M); [cbn; lra|]. clear. destruct k as [|k]; [cbn; lra|].
  rewrite (S_INR (S k)). cbn [pow]. nra.
Qed.
Lemma Bt_add B D F B' D' G : Bt B D F -> Bt B' D' G -> Bt (B + B') (D + D') (fun t => F t + G t).
Proof.
  intros (X & d & Y & Z) (X' & d' & Y' & Z'). split; [eapply Rle_trans; [apply Rabs_triang|nra]|]. exists (d + d'). split; [exact (is_derive_plus F G o d d' Y Y')|].
  eapply Rle_trans; [apply Rabs_triang|]. lra.
Qed.
Lemma Bt_mul B D F B' D' G : At B D F -> Bt B' D' G -> Bt (B * B') (D * B' + B * D') (fun t => F t * G t).
Proof.
  intros (X & d & Y & Z) (X' & d' & Y' & Z'). split; [pose proof (L_vincenty2.Rabs_mul_le _ _ _ _ X X'); lra|]. exists (d * G o + F o * d'). split; [apply (is_derive_mult F G o d d' Y Y'); intros; apply Rmult_comm|].
  eapply Rle_trans; [apply Rabs_triang|]. pose proof (L_vincenty2.Rabs_mul_le _ _ _ _ Z X') as P. pose proof (L_vincenty2.Rabs_mul_le _ _ _ _ X Z').
  replace (D / s * (B' * s)) with (D * B') in P by (field; lra). lra.
Qed.
End Calc.

(** ** The expansion parameter *)
Lemma eps_alt k : 0 <= k -> eps_of k = k * / (sqrt (1 + k) + 1) ^ 2.
Proof.
  intros H. unfold eps_of. pose proof (sqrt_pos (1 + k)) as P. pose proof (sqrt_sqrt (1 + k) ltac:(lra)) as Q. set (s := sqrt (1 + k)) in *. replace 2.0 with 2 by lra. replace 1.0 with 1 by lra. fold s.
  replace (2 * (1 + s) + k) with ((s + 1) ^ 2) by (ring_simplify; lra). reflexivity.
Qed.
Lemma sqrt_ge1 k : 0 <= k -> 1 <= sqrt (1 + k).
Proof. intros H. rewrite <- sqrt_1 at 1. apply sqrt_le_1; lra. Qed.

(** ** The pieces of the series *)
Definition c3a (n e : R) : R := 3 / 128 * e ^ 4 + (2 * n + 5) / 128 * e ^ 3 + (- n ^ 2 + 3 * n + 3) / 64 * e ^ 2 + (1 - n ^ 2) / 8 * e + (1 - n) / 4.
Definition c3b (n e : R) : R := 5 / 256 * e ^ 3 + (n + 3) / 128 * e ^ 2 + (-3 * n ^ 2 - 2 * n + 3) / 64 * e + (n ^ 2 - 3 * n + 2) / 32.
Definition c3c (n e : R) : R := 7 / 512 * e ^ 2 + (-10 * n + 9) / 384 * e + (5 * n ^ 2 - 9 * n + 5) / 192.
Definition c3d (n e : R) : R := 7 / 512 * e + (-14 * n + 7) / 512.
Definition nser (n e u sg : R) : R :=
  2 * (c3a n e * u) * sin sg + 2 * (c3b n e * (2 * u ^ 2 - e ^ 2)) * sin (2 * sg) + 2 * (c3c n e * (4 * u ^ 3 - 3 * (u * e ^ 2))) * sin (3 * sg) +
  2 * (c3d n e * (8 * u ^ 4 - 8 * (u ^ 2 * e ^ 2) + e ^ 4)) * sin (4 * sg) + 2 * (21 / 2560 * (16 * u ^ 5 - 20 * (u ^ 3 * e ^ 2) + 5 * (u * e ^ 4))) * sin (5 * sg).
Lemma lser_diff g e t sg : oblate g -> lser g e (t + sg) - lser g e t = A3v (gd_n g) e * (sg + nser (gd_n g) e (e * cos (2 * t + sg)) sg).
Proof.
  intros O. unfold lser, nC3. change (6 - 1)%nat with 5%nat. rewrite !sin5, A3_val, !(C3_val g e O) by exact O. set (n := gd_n g).
  assert (SD : forall k, sin (2 * (k * (t + sg))) - sin (2 * (k * t)) = 2 * cos (k * (2 * t + sg)) * sin (k * sg)).
  { intros k. replace (2 * (k * (t + sg))) with (k * (2 * t + sg) + k * sg) by ring. replace (2 * (k * t)) with (k * (2 * t + sg) - k * sg) by ring. rewrite sin_plus, sin_minus. ring. }
  pose proof (SD 1) as E1. rewrite !Rmult_1_l in E1. pose proof (SD 2) as E2. pose proof (SD 3) as E3. pose proof (SD 4) as E4. pose proof (SD 5) as E5.
  set (m := 2 * t + sg) in *. destruct (cheb (m / 2)) as (C2 & C3 & C4 & C5 & _). 
  replace (2 * (2 * (m / 2))) with (2 * m) in C2 by field. replace (2 * (3 * (m / 2))) with (3 * m) in C3 by field. replace (2 * (4 * (m / 2))) with (4 * m) in C4 by field. replace (2 * (5 * (m / 2))) with (5 * m) in C5 by field. replace (2 * (m / 2)) with m in * by field.
  rewrite C2 in E2. rewrite C3 in E3. rewrite C4 in E4. rewrite C5 in E5.
  transitivity (A3v n e * (sg + (C3v1 n e * (sin (2 * (t + sg)) - sin (2 * t)) + C3v2 n e * (sin (2 * (2 * (t + sg))) - sin (2 * (2 * t))) + C3v3 n e * (sin (2 * (3 * (t + sg))) - sin (2 * (3 * t))) + C3v4 n e * (sin (2 * (4 * (t + sg))) - sin (2 * (4 * t))) + C3v5 n e * (sin (2 * (5 * (t + sg))) - sin (2 * (5 * t)))))); [ring|].
  rewrite E1, E2, E3, E4, E5. unfold nser, c3a, c3b, c3c, c3d, C3v1, C3v2, C3v3, C3v4, C3v5. field.
Qed.
Section Corr.
Variables (n ep2 U1 U2 : R).
Hypothesis Hn : 0 <= n <= 1 / 199.
Hypothesis Hp : 0 <= ep2 <= 204 / 10000.
Hypothesis V1 : - PI/2 < U1 < PI/2.
Hypothesis V2 : - PI/2 < U2 < PI/2.
Hypothesis N1 : sin U1 < 0.
Hypothesis Le : Rabs (sin U2) <= - sin U1.
Definition kp (o : R) : R := 1 - xx U1 U2 o ^ 2.
Definition isq (k : R) : R := / (sqrt (1 + k) + 1) ^ 2.
Definition fe (o : R) : R := kp o * ep2 * isq (kp o * ep2).
Definition qq (o : R) : R := kp o * cos (sg U1 U2 o) - 2 * sin U1 * sin U2.
Definition fu (o : R) : R := qq o * ep2 * isq (kp o * ep2).
Definition mcor (o : R) : R := (A3v n (fe o) - 1) * sg U1 U2 o + A3v n (fe o) * nser n (fe o) (fu o) (sg U1 U2 o).
Section Pt.
Variable o : R.
Hypothesis Ho : 0 < o < PI.
Let s := aS U1 U2 o.
Let x := xx U1 U2 o.
Let Sp : 0 < s. Proof. apply aS_pos; assumption. Qed.
Let s1 : 0 < s <= 1. Proof. split; [exact Sp|]. unfold s, aS. pose proof (SIN_bound (sg U1 U2 o)). lra. Qed.
Let x01 : 0 <= x <= 1. Proof. destruct (xx_le U1 U2 V1 V2 o Sp ltac:(lra)) as [[A B] _]. pose proof (COS_bound U1). fold x in A, B. lra. Qed.
Let dsg : is_derive (sg U1 U2) o x. Proof. apply sg_derive. exact Sp. Qed.
Lemma kp_At : At o s 1 2 kp /\ 0 <= kp o <= 1.
Proof.
  pose proof (xx_derive U1 U2 o Sp) as D. assert (K : 0 <= kp o <= 1) by (unfold kp; fold x; nra). split; [|exact K]. split; [rewrite Rabs_right; lra|].
  exists (- (2 * x * xx' U1 U2 o)). split.
  - unfold kp. auto_derive; [exists (xx' U1 U2 o); exact D|]. replace (Derive (fun x => xx U1 U2 x) o) with (xx' U1 U2 o) by (symmetry; apply is_derive_unique; exact D). fold x. ring.
  - pose proof (xx'_le U1 U2 V1 V2 N1 Le o Ho) as B. fold s in B. apply Rmult_le_reg_r with s; [lra|]. replace (2 / s * s) with 2 by (field; lra). rewrite <- (Rabs_right s) at 1 by lra. rewrite <- Rabs_mult.
    replace (- (2 * x * xx' U1 U2 o) * s) with (- (2 * x * (xx' U1 U2 o * s))) by ring. rewrite Rabs_Ropp. replace 2 with (2 * 1 * 1) at 2 by ring. apply L_vincenty2.Rabs_mul_le; [apply L_vincenty2.Rabs_mul_le; rewrite Rabs_right; lra|exact B].
Qed.
Lemma cos_At : At o s 1 1 (fun t => cos (sg U1 U2 t)).
Proof.
  split; [apply L_vincenty2.abs_cos|]. exists (- (sin (sg U1 U2 o) * x)). split.
  - auto_derive; [exists x; exact dsg|]. replace (Derive (fun x => sg U1 U2 x) o) with x by (symmetry; apply is_derive_unique; exact dsg). ring.
  - rewrite Rabs_Ropp. assert (Rabs (sin (sg U1 U2 o) * x) <= 1 * 1) by (apply L_vincenty2.Rabs_mul_le; [apply L_vincenty2.abs_sin|rewrite Rabs_right; lra]).
    apply Rle_trans with 1; [lra|]. unfold Rdiv. rewrite Rmult_1_l. rewrite <- Rinv_1. apply Rinv_le_contravar; lra.
Qed.
Lemma isq_At : At o s (1 / 4) (51 / 10000) (fun t => isq (kp t * ep2)).
Proof.
  destruct kp_At as [(_ & d & D & B) K]. set (k := kp o * ep2). assert (K0 : 0 <= k) by (unfold k; nra). pose proof (sqrt_ge1 k K0) as R1. set (r := sqrt (1 + k)) in *.
  assert (I1 : 0 < / (r + 1) <= / 2) by (split; [apply Rinv_0_lt_compat; lra|apply Rinv_le_contravar; lra]).
  split; [unfold isq; fold k r|].
  - rewrite <- pow_inv. rewrite Rabs_right by (apply Rle_ge, pow2_ge_0). replace (1 / 4) with ((/ 2) ^ 2) by (cbn; field). apply pow_incr. lra.
  - exists (- (d * ep2 * (/ r * / (r + 1) ^ 3))). split.
    + unfold isq. auto_derive.
      * fold k. split; [exists d; exact D|]. split; [lra|]. split; [|exact I]. fold r. apply Rgt_not_eq. nra.
      * replace (Derive (fun x => kp x) o) with d by (symmetry; apply is_derive_unique; exact D). fold k. fold r. field. split; lra.
    + rewrite Rabs_Ropp, !Rabs_mult. rewrite (Rabs_right ep2), (Rabs_right (/ r)), (Rabs_right (/ (r + 1) ^ 3)) by (try (apply Rle_ge; left; apply Rinv_0_lt_compat; try apply pow_lt); lra).
      assert (X1 : / r <= 1) by (rewrite <- Rinv_1; apply Rinv_le_contravar; lra). assert (X0 : 0 < / r) by (apply Rinv_0_lt_compat; lra).
      assert (X2 : / (r + 1) ^ 3 <= 1 / 8). { rewrite <- pow_inv. replace (1 / 8) with ((/ 2) ^ 3) by (cbn; field). apply pow_incr. lra. }
      assert (X3 : 0 < / (r + 1) ^ 3) by (apply Rinv_0_lt_compat, pow_lt; lra).
      apply Rle_trans with ((2 / s) * (204 / 10000) * (1 * (1 / 8))).
      * apply Rmult_le_compat; [apply Rmult_le_pos; [apply Rabs_pos|lra]|apply Rmult_le_pos; lra| |apply Rmult_le_compat; lra]. apply Rmult_le_compat; try lra; apply Rabs_pos.
      * unfold Rdiv. assert (0 < / s) by (now apply Rinv_0_lt_compat). lra.
Qed.
Ltac at_step := match goal with
  | H : At _ _ ?B ?D ?F |- At _ _ _ _ ?F => exact H
  | H : At _ _ ?B ?D (fun _ => ?c) |- At _ _ _ _ (fun _ => ?c) => exact H
  | H : At _ _ ?B ?D ?F |- At _ _ _ _ (fun t => ?F t) => exact H
  | |- At _ _ _ _ (fun t => @?F t + @?G t) => eapply (At_add _ _ _ _ F _ _ G)
  | |- At _ _ _ _ (fun t => @?F t - @?G t) => eapply (At_sub _ _ _ _ F _ _ G)
  | |- At _ _ _ _ (fun t => @?F t * @?G t) => eapply (At_mul _ _ _ _ F _ _ G)
  | |- At _ _ _ _ (fun t => - @?F t) => eapply (At_opp _ _ _ _ F)
  | |- At _ _ _ _ (fun t => @?F t ^ ?k) => eapply (At_pow _ _ s1 _ _ F)
  | |- At _ _ _ _ (fun _ => ?c) => first [apply At_pos; lra | apply At_neg; lra]
  end.
Ltac at_go := unfold Rdiv; repeat (cbv beta; at_step).
Ltac at_by := eapply At_le; [exact s1|at_go|cbn [INR pow]; lra|cbn [INR pow]; lra].
Lemma e_At : At o s (51 / 10000) (104 / 10000) fe.
Proof.
  destruct kp_At as [A K]. pose proof isq_At as Q. assert (P : At o s (204 / 10000) 0 (fun _ => ep2)) by (apply At_cst; rewrite Rabs_right; lra). unfold fe. at_by.
Qed.
Lemma q_At : At o s 1 3 qq.
Proof.
  destruct kp_At as [A K]. pose proof cos_At as C. destruct (q_le U1 U2 V1 V2 o Sp) as [Q0 Q1] || destruct (q_le U1 U2 o Sp) as [Q0 Q1]. split; [unfold qq, kp; fold x in Q0, Q1 |- *; nra|].
  pose proof (At_mul _ _ _ _ _ _ _ _ A C) as (_ & d & D & B). exists d. split; [|unfold Rdiv in *; lra].
  unfold qq. evar_last; [apply (is_derive_minus (fun t => kp t * cos (sg U1 U2 t)) (fun _ => 2 * sin U1 * sin U2) o d 0 D); apply (is_derive_const (2 * sin U1 * sin U2))|]. apply Rminus_0_r.
Qed.
Lemma u_At : At o s (51 / 10000) (16 / 1000) fu.
Proof.
  pose proof q_At as A. pose proof isq_At as Q. assert (P : At o s (204 / 10000) 0 (fun _ => ep2)) by (apply At_cst; rewrite Rabs_right; lra). unfold fu. at_by.
Qed.
Let nA : At o s (1 / 199) 0 (fun _ => n). Proof. apply At_cst; rewrite Rabs_right; lra. Qed.
Lemma A3_At : At o s (27 / 10000) (54 / 10000) (fun t => A3v n (fe t) - 1).
Proof.
  pose proof e_At as E. pose proof nA as N.
  apply At_le with (B := 27 / 10000) (D := 54 / 10000); [exact s1| |lra|lra].
  assert (X : At o s (27 / 10000) (54 / 10000) (fun t => -3 / 128 * fe t ^ 5 + (-2 * n - 3) / 64 * fe t ^ 4 + (- n ^ 2 - 3 * n - 1) / 16 * fe t ^ 3 + (3 * n ^ 2 - n - 2) / 8 * fe t ^ 2 + (n - 1) / 2 * fe t)) by at_by.
  destruct X as (X & d & D & B). split; [unfold A3v; replace (_ - 1) with (-3 / 128 * fe o ^ 5 + (-2 * n - 3) / 64 * fe o ^ 4 + (- n ^ 2 - 3 * n - 1) / 16 * fe o ^ 3 + (3 * n ^ 2 - n - 2) / 8 * fe o ^ 2 + (n - 1) / 2 * fe o) by ring; exact X|].
  exists d. split; [|exact B]. eapply is_derive_ext; [|exact D]. intros t. change (-3 / 128 * fe t ^ 5 + (-2 * n - 3) / 64 * fe t ^ 4 + (- n ^ 2 - 3 * n - 1) / 16 * fe t ^ 3 + (3 * n ^ 2 - n - 2) / 8 * fe t ^ 2 + (n - 1) / 2 * fe t = A3v n (fe t) - 1). unfold A3v. ring.
Qed.
Lemma sinl_Bt l : 0 <= l -> (forall y, Rabs (sin (l * y)) <= l * Rabs (sin y)) -> Bt o s l l (fun t => sin (l * sg U1 U2 t)).
Proof.
  intros L H. split; [eapply Rle_trans; [apply H|]; fold (aS U1 U2 o); fold s; rewrite (Rabs_right s); lra|]. exists (l * x * cos (l * sg U1 U2 o)). split.
  - auto_derive; [exists x; exact dsg|]. replace (Derive (fun x => sg U1 U2 x) o) with x by (symmetry; apply is_derive_unique; exact dsg). ring.
  - replace l with (l * 1 * 1) at 3 by ring. repeat apply L_vincenty2.Rabs_mul_le; [rewrite Rabs_right; lra|rewrite Rabs_right; lra|apply L_vincenty2.abs_cos].
Qed.
Lemma sin_mult (k : nat) y : Rabs (sin (INR k * y)) <= INR k * Rabs (sin y).
Proof.
  induction k as [|k IH]; [cbn [INR]; rewrite !Rmult_0_l, sin_0, Rabs_R0; lra|]. rewrite S_INR. replace ((INR k + 1) * y) with (INR k * y + y) by ring. rewrite sin_plus. eapply Rle_trans; [apply Rabs_triang|].
  rewrite !Rabs_mult. pose proof (L_vincenty2.abs_cos y) as A. pose proof (L_vincenty2.abs_cos (INR k * y)) as B. pose proof (Rabs_pos (sin y)). pose proof (Rabs_pos (sin (INR k * y))). nra.
Qed.
Lemma N_Bt : Bt o s (28 / 10000) (125 / 10000) (fun t => nser n (fe t) (fu t) (sg U1 U2 t)).
Proof.
  pose proof e_At as E. pose proof u_At as U. pose proof nA as N.
  assert (X1 : At o s (27 / 10000) (84 / 10000) (fun t => 2 * (c3a n (fe t) * fu t))).
  { assert (C : At o s (255 / 1000) (3 / 1000) (fun t => c3a n (fe t))) by (unfold c3a; at_by). at_by. }
  assert (X2 : At o s (12 / 1000000) (1 / 10000) (fun t => 2 * (c3b n (fe t) * (2 * fu t ^ 2 - fe t ^ 2)))).
  { assert (C : At o s (7 / 100) (1 / 1000) (fun t => c3b n (fe t))) by (unfold c3b; at_by). at_by. }
  assert (X3 : At o s (1 / 1000000) (1 / 100000) (fun t => 2 * (c3c n (fe t) * (4 * fu t ^ 3 - 3 * (fu t * fe t ^ 2))))).
  { assert (C : At o s (3 / 100) (1 / 1000) (fun t => c3c n (fe t))) by (unfold c3c; at_by). at_by. }
  assert (X4 : At o s (1 / 1000000) (1 / 100000) (fun t => 2 * (c3d n (fe t) * (8 * fu t ^ 4 - 8 * (fu t ^ 2 * fe t ^ 2) + fe t ^ 4)))).
  { assert (C : At o s (2 / 100) (1 / 1000) (fun t => c3d n (fe t))) by (unfold c3d; at_by). at_by. }
  assert (X5 : At o s (1 / 1000000) (1 / 100000) (fun t => 2 * (21 / 2560 * (16 * fu t ^ 5 - 20 * (fu t ^ 3 * fe t ^ 2) + 5 * (fu t * fe t ^ 4))))) by at_by.
  pose proof (sinl_Bt 1 ltac:(lra) ltac:(intros y; exact (sin_mult 1 y))) as S1. pose proof (sinl_Bt 2 ltac:(lra) ltac:(intros y; pose proof (sin_mult 2 y) as Q; cbn [INR] in Q; replace (1 + 1) with 2 in Q by ring; exact Q)) as S2.
  pose proof (sinl_Bt 3 ltac:(lra) ltac:(intros y; pose proof (sin_mult 3 y) as Q; cbn [INR] in Q; replace (1 + 1 + 1) with 3 in Q by ring; exact Q)) as S3.
  pose proof (sinl_Bt 4 ltac:(lra) ltac:(intros y; pose proof (sin_mult 4 y) as Q; cbn [INR] in Q; replace (1 + 1 + 1 + 1) with 4 in Q by ring; exact Q)) as S4.
  pose proof (sinl_Bt 5 ltac:(lra) ltac:(intros y; pose proof (sin_mult 5 y) as Q; cbn [INR] in Q; replace (1 + 1 + 1 + 1 + 1) with 5 in Q by ring; exact Q)) as S5.
  assert (S1' : Bt o s 1 1 (fun t => sin (sg U1 U2 t))).
  { destruct S1 as (A & d & D & B). split; [rewrite Rmult_1_l in A; exact A|]. exists d. split; [|exact B]. eapply is_derive_ext; [|exact D]. intros t. cbv beta. now rewrite Rmult_1_l. }
  unfold nser. eapply Bt_le; [exact s1|repeat apply Bt_add; (apply Bt_mul; [exact s1|eassumption|eassumption])|lra|lra].
Qed.
(** The correction itself: sigma and what the series adds to it. *)
Lemma mcor_rate : Rabs (mcor o) <= 56 / 10000 * sg U1 U2 o /\ exists d, is_derive mcor o d /\ Rabs d <= 55 / 10000 * (sg U1 U2 o / s) + 16 / 1000.
Proof.
  pose proof A3_At as (A & a & Da & Ba). pose proof N_Bt as NB.
  assert (A3b : At o s (1003 / 1000) (54 / 10000) (fun t => A3v n (fe t))).
  { destruct A3_At as (A' & d & D & B). split.
    - replace (A3v n (fe o)) with ((A3v n (fe o) - 1) + 1) by ring. eapply Rle_trans; [apply Rabs_triang|]. rewrite Rabs_R1. lra.
    - exists d. split; [|exact B]. eapply is_derive_ext; [|evar_last; [apply (is_derive_plus _ (fun _ => 1) o d 0 D (is_derive_const 1 o))|apply Rplus_0_r]]. intros t. cbn. ring. }
  pose proof (Bt_mul o s s1 _ _ _ _ _ _ A3b NB) as (M & m & Dm & Bm). 
  destruct (sg_cs U1 U2 o) as (_ & G & _). set (S := sg U1 U2 o) in *. assert (SS : s <= S) by (unfold s, aS; fold S; destruct (Req_dec S 0) as [Z|]; [rewrite Z, sin_0; lra|left; apply sin_lt_x; lra]).
  split.
  - unfold mcor. fold S. eapply Rle_trans; [apply Rabs_triang|]. rewrite Rabs_mult, (Rabs_right S) by lra. cbv beta in M. fold S in M.
    assert (Rabs (A3v n (fe o) - 1) * S <= 27 / 10000 * S) by (apply Rmult_le_compat_r; lra). nra.
  - exists ((a * S + (A3v n (fe o) - 1) * x) + m). split.
    + unfold mcor. apply (is_derive_plus (fun t => (A3v n (fe t) - 1) * sg U1 U2 t) (fun t => A3v n (fe t) * nser n (fe t) (fu t) (sg U1 U2 t)) o _ _); [|exact Dm].
      apply (is_derive_mult (fun t => A3v n (fe t) - 1) (sg U1 U2) o a x Da dsg). intros; apply Rmult_comm.
    + eapply Rle_trans; [apply Rabs_triang|]. eapply Rle_trans; [apply Rplus_le_compat_r, Rabs_triang|].
      assert (P1 : Rabs (a * S) <= 54 / 10000 * (S / s)). { replace (54 / 10000 * (S / s)) with (54 / 10000 / s * S) by (field; lra). apply L_vincenty2.Rabs_mul_le; [exact Ba|rewrite Rabs_right; lra]. }
      assert (P2 : Rabs ((A3v n (fe o) - 1) * x) <= 27 / 10000 * 1) by (apply L_vincenty2.Rabs_mul_le; [exact A|rewrite Rabs_right; lra]).
      assert (0 <= S / s) by (apply Rmult_le_pos; [lra|left; now apply Rinv_0_lt_compat]). lra.
Qed.
Variable f : R.
Hypothesis Hf : 0 <= f.
Definition hcor (t : R) : R := - f * A3v n (fe t) * xx U1 U2 t * (sg U1 U2 t + nser n (fe t) (fu t) (sg U1 U2 t)).
Lemma hcor_alt t : hcor t = - f * (xx U1 U2 t * (sg U1 U2 t + mcor t)).
Proof. unfold hcor, mcor. ring. Qed.
Theorem hcor_rate : Rabs (hcor o) <= 10056 / 10000 * (f * (x * sg U1 U2 o)) /\ exists d, is_derive hcor o d /\ Rabs d <= f * (102 / 100 * (sg U1 U2 o / s) + 102 / 100).
Proof.
  destruct mcor_rate as (M & m & Dm & Bm). destruct (sg_cs U1 U2 o) as (_ & G & _). pose proof (xx_derive U1 U2 o Sp) as Dx. pose proof (xx'_le U1 U2 V1 V2 N1 Le o Ho) as Bx. fold s in Bx. set (S := sg U1 U2 o) in *.
  assert (SM : Rabs (S + mcor o) <= 10056 / 10000 * S) by (eapply Rle_trans; [apply Rabs_triang|]; rewrite (Rabs_right S); lra). split.
  - rewrite hcor_alt. rewrite !Rabs_mult, Rabs_Ropp, (Rabs_right f), (Rabs_right (xx U1 U2 o)) by (fold x; lra). fold x S.
    replace (10056 / 10000 * (f * (x * S))) with (f * (x * (10056 / 10000 * S))) by ring. repeat (apply Rmult_le_compat_l; [lra|]). exact SM.
  - exists (- f * (xx' U1 U2 o * (S + mcor o) + x * (x + m))). split.
    + eapply is_derive_ext; [intros t; symmetry; apply hcor_alt|].
      apply (is_derive_scal (fun t => xx U1 U2 t * (sg U1 U2 t + mcor t)) o (- f)). apply (is_derive_mult (xx U1 U2) (fun t => sg U1 U2 t + mcor t) o (xx' U1 U2 o) (x + m) Dx); [|intros; apply Rmult_comm].
      exact (is_derive_plus (sg U1 U2) mcor o x m dsg Dm).
    + rewrite Rabs_mult, Rabs_Ropp, (Rabs_right f) by lra. apply Rmult_le_compat_l; [lra|]. eapply Rle_trans; [apply Rabs_triang|].
      assert (P1 : Rabs (xx' U1 U2 o * (S + mcor o)) <= 10056 / 10000 * (S / s)).
      { replace (xx' U1 U2 o * (S + mcor o)) with ((xx' U1 U2 o * s) * ((S + mcor o) * / s)) by (field; lra). replace (10056 / 10000 * (S / s)) with (1 * (10056 / 10000 * S * / s)) by (field; lra).
        apply L_vincenty2.Rabs_mul_le; [exact Bx|]. rewrite Rabs_mult, (Rabs_right (/ s)) by (left; now apply Rinv_0_lt_compat). apply Rmult_le_compat_r; [left; now apply Rinv_0_lt_compat|exact SM]. }
      assert (P2 : Rabs (x * (x + m)) <= 1 * (1 + (55 / 10000 * (S / s) + 16 / 1000))). { apply L_vincenty2.Rabs_mul_le; [rewrite Rabs_right; lra|]. eapply Rle_trans; [apply Rabs_triang|]. rewrite (Rabs_right x); lra. }
      assert (0 <= S / s) by (apply Rmult_le_pos; [lra|left; now apply Rinv_0_lt_compat]). lra.
Qed.
End Pt.
End Corr.
