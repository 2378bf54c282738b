(** The length returned by vdist, as a function of the longitude difference on the auxiliary sphere. *)
From Coq Require Import QArith List Reals Lra Lia Psatz. Import ListNotations.
From Coquelicot Require Import Coquelicot.
From Verif Require Import PyMath M_vincenty Spec L_PyMath L_poly L_nvector L_series1 L_latitude2 L_vincenty L_vincenty2 L_vincenty3 L_vin1 L_vin3.
Open Scope R_scope.

Section Len.
Variables (k0 U1 U2 : R).
Hypothesis K0 : 0 <= k0 <= 1 / 40.
Let s1 := sin U1. Let s2 := sin U2.
(** B = c beta with c = cos^2(alpha). *)
Definition bet (c : R) : R := k0 / 1024 * (256 + (k0 * c) * (-128 + (k0 * c) * (74 - 47 * (k0 * c)))).
Definition WW (c q s k : R) : R := bet c * q + k / 4 * bet c ^ 2 * (2 * q ^ 2 - c ^ 2) - bet c ^ 3 / 24 * (4 * s ^ 2 - 3) * (4 * q ^ 3 - 3 * c ^ 2 * q).
Definition LEN (l : R) : R := let c := 1 - xx U1 U2 l ^ 2 in let S := sg U1 U2 l in
  vin_A (k0 * c) * (S - sin S * WW c (c * cos S - 2 * s1 * s2) (sin S) (cos S)).
Lemma LEN_eq c q m S : c * m = q -> vin_A (k0 * c) * (S - sin S * WW c q (sin S) (cos S)) = vin_A (k0 * c) * (S - vin_deltasigma (vin_B (k0 * c)) (sin S) (cos S) m).
Proof. intros <-. unfold WW, vin_deltasigma, bet, vin_B. field. Qed.
Definition dLEN (x y r q s k : R) : R := let c := 1 - x ^ 2 in let u := k0 * c in
  let A1 := (4096 + u * (-1536 + u * (960 - 700 * u))) / 16384 in
  let b := bet c in let pc := - 2 * x * y in let pb := k0 ^ 2 / 1024 * (-128 + u * (148 - 141 * u)) * pc in
  let pq := pc * k - c * s ^ 2 * x in
  k0 * A1 * pc * (r - WW c q s k) + vin_A u * (x - k * x * WW c q s k - (pb * q + b * pq
    + (- (s ^ 2 * x) / 4 * b ^ 2 * (2 * q ^ 2 - c ^ 2) + k / 4 * (2 * b * pb * (2 * q ^ 2 - c ^ 2) + b ^ 2 * (4 * q * pq - 2 * c * pc)))
    - (b ^ 2 * pb / 8 * (4 * s ^ 2 - 3) * (4 * q ^ 3 - 3 * c ^ 2 * q) + b ^ 3 / 24 * (8 * s ^ 2 * k * x) * (4 * q ^ 3 - 3 * c ^ 2 * q)
       + b ^ 3 / 24 * (4 * s ^ 2 - 3) * (12 * q ^ 2 * pq - 6 * c * pc * q - 3 * c ^ 2 * pq)))).
Lemma LEN_derive l : 0 < sin (sg U1 U2 l) -> is_derive LEN l
  (dLEN (xx U1 U2 l) (xx' U1 U2 l * sin (sg U1 U2 l)) (sg U1 U2 l / sin (sg U1 U2 l)) ((1 - xx U1 U2 l ^ 2) * cos (sg U1 U2 l) - 2 * s1 * s2) (sin (sg U1 U2 l)) (cos (sg U1 U2 l))).
Proof.
  intros H. pose proof (sg_derive U1 U2 l H) as D. pose proof (xx_derive U1 U2 l H) as D'. unfold LEN, vin_A, WW, bet. auto_derive.
  - repeat split; try (exists (xx U1 U2 l); exact D); try (exists (xx' U1 U2 l); exact D').
  - replace (Derive (fun x => sg U1 U2 x) l) with (xx U1 U2 l) by (symmetry; apply is_derive_unique; exact D). replace (Derive (fun x => xx U1 U2 x) l) with (xx' U1 U2 l) by (symmetry; apply is_derive_unique; exact D'). unfold dLEN, WW, bet, vin_A.
    set (x := xx U1 U2 l) in *. set (x' := xx' U1 U2 l) in *. set (S := sg U1 U2 l) in *. set (k := cos S) in *. set (s := sin S) in *. clearbody k s x x' S.
    cbv zeta. field. lra.
Qed.
End Len.
Lemma dLEN_bound k0 x y r q s k : 0 <= k0 <= 1 / 40 -> Rabs x <= 1 -> Rabs y <= 1 -> Rabs r <= 1 -> Rabs q <= 1 -> Rabs s <= 1 -> Rabs k <= 1 ->
  Rabs (dLEN k0 x (2 * y) (15 * r) q s k - x) <= 18 * k0 ^ 1.
Proof.
  intros. unfold dLEN, WW, bet, vin_A. cbv zeta. tm_le [k0; x; y; r; q; s; k] (1#40)%Q 2%nat 1%nat (18#1)%Q; try assumption.
Qed.
Section LenLip.
Variables (k0 U1 U2 : R).
Hypothesis K0 : 0 <= k0 <= 1 / 40.
Hypothesis V1 : - PI/2 < U1 < PI/2.
Hypothesis V2 : - PI/2 < U2 < PI/2.
Lemma LEN_rate l : 0 <= l <= PI -> 0 < sg U1 U2 l <= 29 / 10 -> exists d, is_derive (LEN k0 U1 U2) l d /\ Rabs d <= 3 / 2.
Proof.
  intros Hl Hs. pose proof (sg_open U1 U2 l Hs) as SP. eexists. split; [apply (LEN_derive k0 U1 U2 l SP)|].
  destruct (xx_le U1 U2 V1 V2 l SP Hl) as [X1 _]. destruct (c_pos U1 U2 V1 V2) as [P1 P2]. set (x := xx U1 U2 l) in *.
  pose proof (L_vincenty2.abs_cos (sg U1 U2 l)) as KB. pose proof (L_vincenty2.abs_cos l) as CL. pose proof (L_vincenty2.abs_sin (sg U1 U2 l)) as SB. pose proof (sin_low (sg U1 U2 l) ltac:(lra)) as SL. destruct (q_le U1 U2 l SP) as [Q0 Q1]. fold x in Q0, Q1.
  set (q := (1 - x ^ 2) * cos (sg U1 U2 l) - 2 * sin U1 * sin U2) in *. set (y := xx' U1 U2 l * sin (sg U1 U2 l)).
  assert (HY : Rabs (y / 2) <= 1).
  { assert (Ey : y = cos U1 * cos U2 * cos l - x ^ 2 * cos (sg U1 U2 l)) by (unfold y, xx'; fold x; field; lra).
    assert (HG : Rabs (cos U1 * cos U2 * cos l) <= 1).
    { replace 1 with (1 * 1 * 1) by ring. apply Rabs_mul_le; [apply Rabs_mul_le; rewrite Rabs_right; lra|exact CL]. }
    assert (Rabs (x ^ 2 * cos (sg U1 U2 l)) <= 1 * 1) by (apply Rabs_mul_le; [rewrite Rabs_right; nra|exact KB]).
    assert (Rabs y <= 2) by (rewrite Ey; unfold Rminus; eapply Rle_trans; [apply Rabs_triang|]; rewrite Rabs_Ropp; lra). unfold Rdiv. rewrite Rabs_mult, (Rabs_right (/ 2)); lra. }
  set (r := sg U1 U2 l / sin (sg U1 U2 l)). assert (HR : Rabs (r / 15) <= 1).
  { assert (0 < / sin (sg U1 U2 l)) by (now apply Rinv_0_lt_compat). assert (0 <= r <= 15); [|rewrite Rabs_right; lra]. unfold r. split; [apply Rmult_le_pos; lra|].
    apply Rmult_le_reg_r with (sin (sg U1 U2 l)); [lra|]. unfold Rdiv. rewrite Rmult_assoc, Rinv_l; lra. }
  assert (HQ : Rabs q <= 1) by (pose proof (pow2_ge_0 x); lra).
  assert (HX : Rabs x <= 1) by (rewrite Rabs_right; lra).
  pose proof (dLEN_bound k0 x (y / 2) (r / 15) q (sin (sg U1 U2 l)) (cos (sg U1 U2 l)) K0 HX HY HR HQ SB KB) as D.
  replace (2 * (y / 2)) with y in D by field. replace (15 * (r / 15)) with r in D by field.
  set (d := dLEN k0 x y r q _ _) in *. replace d with (d - x + x) by ring. eapply Rle_trans; [apply Rabs_triang|]. rewrite pow_1 in D. lra.
Qed.
Lemma LEN_lip l l' : 0 <= l -> l <= l' -> l' <= PI -> 0 < sg U1 U2 l -> sg U1 U2 l' <= 29 / 10 -> Rabs (LEN k0 U1 U2 l' - LEN k0 U1 U2 l) <= 3 / 2 * (l' - l).
Proof.
  intros A B C D E. destruct (Req_dec l l') as [->|N]; [rewrite Rminus_diag_eq, Rabs_R0 by reflexivity; lra|].
  destruct (mvt (LEN k0 U1 U2) (Derive (LEN k0 U1 U2)) l l' ltac:(lra)) as (z & Ez & Hz).
  - intros z Hz. pose proof (sg_mono U1 U2 V1 V2 l z A (proj1 Hz) ltac:(lra)). pose proof (sg_mono U1 U2 V1 V2 z l' ltac:(lra) (proj2 Hz) C). destruct (LEN_rate z ltac:(lra) ltac:(lra)) as (d & Dd & _). rewrite (is_derive_unique _ _ _ Dd). exact Dd.
  - pose proof (sg_mono U1 U2 V1 V2 l z A ltac:(lra) ltac:(lra)). pose proof (sg_mono U1 U2 V1 V2 z l' ltac:(lra) ltac:(lra) C). destruct (LEN_rate z ltac:(lra) ltac:(lra)) as (d & Dd & Bd). rewrite (is_derive_unique _ _ _ Dd) in Ez.
    rewrite Ez, Rabs_mult, (Rabs_right (l' - l)) by lra. apply Rmult_le_compat_r; lra.
Qed.
End LenLip.
