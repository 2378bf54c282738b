(** The longitude iteration of vdist contracts unless the points are nearly antipodal. *)
From Coq Require Import QArith List Reals Lra Lia Psatz.
Import ListNotations.
From Coquelicot Require Import Coquelicot.
From Verif Require Import PyMath M_vincenty Spec L_PyMath L_poly L_nvector L_series2 L_ecefacc2 L_latitude2 L_vincenty L_vincenty2 L_vincenty3 L_vin1.
From Verif Require L_vincenty5 L_ecef.
Open Scope R_scope.

(** ** Angles *)
Lemma angle_triangle p q r : is_unit p -> is_unit q -> is_unit r -> unit_angle p r <= unit_angle p q + unit_angle q r.
Proof.
  intros Hp Hq Hr. pose proof (angle_range p q Hp Hq) as A. pose proof (angle_range q r Hq Hr) as B. pose proof (angle_range p r Hp Hr) as C.
  destruct (Rle_dec PI (unit_angle p q + unit_angle q r)) as [G|G]; [lra|apply Rnot_le_lt in G]. apply Rnot_lt_le. intros X.
  assert (D : cos (unit_angle p r) < cos (unit_angle p q + unit_angle q r)) by (apply cos_decreasing_1; lra).
  assert (SA : 0 <= sin (unit_angle p q)) by (apply sin_ge_0; lra). assert (SB : 0 <= sin (unit_angle q r)) by (apply sin_ge_0; lra).
  assert (PA := sin_pow2 (unit_angle p q)). assert (PB := sin_pow2 (unit_angle q r)).
  rewrite cos_plus in D. set (sa := sin (unit_angle p q)) in *. set (sb := sin (unit_angle q r)) in *.
  rewrite (cos_angle p q Hp Hq) in D, PA. rewrite (cos_angle q r Hq Hr) in D, PB. rewrite (cos_angle p r Hp Hr) in D.
  assert (GR : (vdot p r - vdot p q * vdot q r) ^ 2 <= (sa * sb) ^ 2).
  { rewrite Rpow_mult_distr, PA, PB. unfold is_unit in *. clear - Hp Hq Hr. 
    assert (Q : (vdot p p * vdot q q - vdot p q ^ 2) * (vdot q q * vdot r r - vdot q r ^ 2) - (vdot p r * vdot q q - vdot p q * vdot q r) ^ 2 =
      vdot q q * (let '(a, b, c) := p in let '(d, e, g) := q in let '(x, y, z) := r in a * (e * z - g * y) - b * (d * z - g * x) + c * (d * y - e * x)) ^ 2).
    { destruct p as [[? ?] ?], q as [[? ?] ?], r as [[? ?] ?]. cbn [vdot]. ring. }
    rewrite Hp, Hq, Hr in Q. match type of Q with _ = 1 * ?d ^ 2 => pose proof (pow2_ge_0 d) end. lra. }
  assert (0 <= sa * sb) by (apply Rmult_le_pos; assumption).
  set (u := vdot p r - vdot p q * vdot q r) in *. assert (u < - (sa * sb)) by (unfold u; lra). nra.
Qed.
Lemma pi_31 : 31 / 10 < PI.
Proof.
  apply Rnot_le_lt. intros H. pose proof PI2_3_2. pose proof PI_RGT_0. assert (C : cos (155 / 100) <= 0) by (apply cos_le_0; lra).
  destruct (cos_taylor (155 / 100)) as (th & T & E). apply Rabs_le_between in T. lra.
Qed.
Lemma sin_low x : 0 <= x <= 29 / 10 -> x <= 15 * sin x.
Proof.
  intros H. pose proof pi_31 as P. destruct (Rlt_dec x (PI / 2)) as [A|A].
  - pose proof (arc_sin x ltac:(rewrite Rabs_right; lra)) as Q. assert (0 <= sin x) by (apply sin_ge_0; lra). rewrite !Rabs_right in Q by lra. lra.
  - apply Rnot_lt_le in A. rewrite <- sin_PI_x. destruct (Rle_dec (1 / 5) (PI - x)) as [B|B]; [|lra].
    assert (Q : sin (1 / 5) <= sin (PI - x)) by (apply sin_incr_1; lra). destruct (sin_taylor (1 / 5)) as (th & T & E). apply Rabs_le_between in T. rewrite E in Q. lra.
Qed.
Lemma pi_315 : PI < 315 / 100.
Proof.
  apply Rnot_le_lt. intros H. assert (A : 0 <= cos (1575 / 1000)) by (apply cos_ge_0; lra).
  replace (1575 / 1000) with (2 * (7875 / 10000)) in A by lra. rewrite cos_2a_cos in A. destruct (cos_taylor (7875 / 10000)) as (th & T & E). apply Rabs_le_between in T.
  assert (70 / 100 <= cos (7875 / 10000) <= 7064 / 10000) by (rewrite E; lra). nra.
Qed.
Section Vdist.
Variables (f U1 U2 : R).
Hypothesis F : 0 <= f <= 1 / 100.
Let s1 := sin U1. Let s2 := sin U2. Let c1 := cos U1. Let c2 := cos U2.
Definition sg (l : R) : R := v_sigma U1 U2 l.
Definition xx (l : R) : R := c1 * c2 * sin l / sin (sg l).
Lemma sg_cs l : cos (sg l) = s1 * s2 + c1 * c2 * cos l /\ 0 <= sg l <= PI /\ 0 <= sin (sg l).
Proof. destruct (v_sigma_cs U1 U2 l) as [A B]. split; [exact A|]. split; [exact B|]. apply sin_ge_0; apply B. Qed.
Lemma sg_derive l : 0 < sin (sg l) -> is_derive sg l (xx l).
Proof.
  intros H. destruct (sg_cs l) as (C & B & _). assert (CR : -1 < cos (sg l) < 1) by (pose proof (sc1 (sg l)); nra).
  apply (is_derive_ext (fun l => acos (s1 * s2 + c1 * c2 * cos l))); [intros t; symmetry; apply v_sigma_acos|].
  rewrite C in CR. pose proof (derive_pt_acos _ CR) as D. apply derive_pt_eq_1 in D. apply is_derive_Reals in D.
  assert (D2 : is_derive (fun l => s1 * s2 + c1 * c2 * cos l) l (- (c1 * c2 * sin l))) by (auto_derive; [exact I|ring]).
  pose proof (is_derive_comp acos (fun l => s1 * s2 + c1 * c2 * cos l) l _ _ D D2) as E.
  replace (xx l) with (scal (- (c1 * c2 * sin l)) (-1 / sqrt (1 - (s1 * s2 + c1 * c2 * cos l)²))); [exact E|].
  rewrite <- C. replace (sqrt (1 - (cos (sg l))²)) with (sin (sg l)); [unfold xx, scal; cbn; unfold mult; cbn; field; lra|].
  symmetry. apply sqrt_uniq; [lra|]. pose proof (sc1 (sg l)). unfold Rsqr. lra.
Qed.
Definition xx' (l : R) : R := (c1 * c2 * cos l - xx l ^ 2 * cos (sg l)) / sin (sg l).
Lemma xx_derive l : 0 < sin (sg l) -> is_derive xx l (xx' l).
Proof.
  intros H. pose proof (sg_derive l H) as D. unfold xx at 1. auto_derive.
  - split; [exists (xx l); exact D|]. split; [lra|exact I].
  - replace (Derive (fun x => sg x) l) with (xx l) by (symmetry; apply is_derive_unique; exact D). unfold xx'. unfold xx. field. lra.
Qed.
Definition kap (c : R) : R := f / 16 * (4 + f * (4 - 3 * c)).
(** The correction of one pass, without its factor f, free of quotients. *)
Definition HH (l : R) : R := let x := xx l in let c := 1 - x ^ 2 in let C := vC f c in let q := c * cos (sg l) - 2 * s1 * s2 in
  (1 - C) * (x * sg l + c1 * c2 * sin l * (kap c * q + cos (sg l) * (2 * (kap c * q) ^ 2 - C ^ 2))).
(** Its derivative, in terms of bounded quantities: y = x' sin(sigma), r = sigma / sin(sigma). *)
Definition dHH (x y r q s k g : R) : R := let c := 1 - x ^ 2 in let C := vC f c in let ka := kap c in
  let C1 := f / 16 * (4 + 4 * f - 6 * f * c) in let W := ka * q + k * (2 * (ka * q) ^ 2 - C ^ 2) in
  let pc := - 2 * x ^ 2 * y in let pk := - (3 * f ^ 2 / 16) * pc in let pq := pc * k - x ^ 2 * c * s ^ 2 in
  let pkq := pk * q + ka * pq in
  - C1 * (pc * r + pc * W) + (1 - C) * (y * r + x ^ 2 + g * W + (pkq - s ^ 2 * x ^ 2 * (2 * (ka * q) ^ 2 - C ^ 2) + k * (4 * ka * q * pkq - 2 * C * C1 * pc))).
Lemma HH_derive l : 0 < sin (sg l) -> is_derive HH l
  (dHH (xx l) (xx' l * sin (sg l)) (sg l / sin (sg l)) ((1 - xx l ^ 2) * cos (sg l) - 2 * s1 * s2) (sin (sg l)) (cos (sg l)) (c1 * c2 * cos l)).
Proof.
  intros H. pose proof (sg_derive l H) as D. pose proof (xx_derive l H) as D'. unfold HH, vC, kap. auto_derive.
  - repeat split; try (exists (xx l); exact D); try (exists (xx' l); exact D').
  - replace (Derive (fun x => sg x) l) with (xx l) by (symmetry; apply is_derive_unique; exact D). replace (Derive (fun x => xx x) l) with (xx' l) by (symmetry; apply is_derive_unique; exact D'). unfold dHH, vC, kap. assert (P : c1 * c2 * sin l = xx l * sin (sg l)) by (unfold xx; field; lra).
    set (x := xx l) in *. set (x' := xx' l) in *. set (S := sg l) in *. set (k := cos S) in *. set (s := sin S) in *. set (g := c1 * c2 * cos l). clearbody k s x x' S.
    rewrite P.
    unfold g. field. lra.
Qed.
Lemma dHH_bound x y r q s k g : Rabs x <= 1 -> Rabs y <= 1 -> Rabs r <= 1 -> Rabs q <= 1 -> Rabs s <= 1 -> Rabs k <= 1 -> Rabs g <= 1 ->
  Rabs (dHH x (2 * y) (15 * r) (3 * q) s k g - (30 * (y * r) + x ^ 2)) <= 34 * f ^ 1.
Proof.
  intros. unfold dHH, vC, kap. cbv zeta. tm_le [f; x; y; r; q; s; k; g] (1#100)%Q 4%nat 1%nat (34#1)%Q; try assumption.
Qed.
Hypothesis V1 : - PI/2 < U1 < PI/2.
Hypothesis V2 : - PI/2 < U2 < PI/2.
Lemma c_pos : 0 < c1 <= 1 /\ 0 < c2 <= 1.
Proof. unfold c1, c2. pose proof (COS_bound U1). pose proof (COS_bound U2). assert (0 < cos U1) by (apply cos_gt_0; lra). assert (0 < cos U2) by (apply cos_gt_0; lra). lra. Qed.
Lemma sin2_sg l : sin (sg l) ^ 2 = (c2 * sin l) ^ 2 + (c1 * s2 - s1 * c2 * cos l) ^ 2.
Proof. apply (v_sigma_sin U1 U2 l). Qed.
Lemma sin2_sg' l : sin (sg l) ^ 2 = (c1 * sin l) ^ 2 + (c2 * s1 - s2 * c1 * cos l) ^ 2.
Proof. unfold sg. rewrite v_sigma_sym. apply (v_sigma_sin U2 U1 l). Qed.
Lemma xx_mul l : 0 < sin (sg l) -> xx l * sin (sg l) = c1 * c2 * sin l.
Proof. intros H. unfold xx. field. lra. Qed.
Lemma xx_le l : 0 < sin (sg l) -> 0 <= l <= PI -> 0 <= xx l <= c1 /\ xx l <= c2.
Proof.
  intros H Hl. destruct c_pos as [P1 P2]. assert (S0 : 0 <= sin l) by (apply sin_ge_0; lra).
  assert (X0 : 0 <= xx l). { unfold xx. apply Rmult_le_pos; [|left; now apply Rinv_0_lt_compat]. apply Rmult_le_pos; [apply Rmult_le_pos; lra|exact S0]. }
  assert (A : c2 * sin l <= sin (sg l)). { apply Rsqr_incr_0_var; [rewrite !Rsqr_pow2, sin2_sg|lra]. pose proof (pow2_ge_0 (c1 * s2 - s1 * c2 * cos l)). lra. }
  assert (B : c1 * sin l <= sin (sg l)). { apply Rsqr_incr_0_var; [rewrite !Rsqr_pow2, sin2_sg'|lra]. pose proof (pow2_ge_0 (c2 * s1 - s2 * c1 * cos l)). lra. }
  pose proof (xx_mul l H) as M. split; [split; [exact X0|]|]; apply Rmult_le_reg_r with (sin (sg l)); try lra; rewrite M; nra.
Qed.
Lemma cos2_eq l : 0 < sin (sg l) -> (1 - xx l ^ 2) * sin (sg l) ^ 2 = s1 ^ 2 + s2 ^ 2 - 2 * s1 * s2 * cos (sg l).
Proof.
  intros H. replace ((1 - xx l ^ 2) * sin (sg l) ^ 2) with (sin (sg l) ^ 2 - (xx l * sin (sg l)) ^ 2) by ring. rewrite (xx_mul l H), sin2_sg. destruct (sg_cs l) as [-> _].
  pose proof (sc1 U1) as A. pose proof (sc1 U2) as B. pose proof (sc1 l) as C. fold s1 c1 in A. fold s2 c2 in B.
  assert (A' : c1 ^ 2 = 1 - s1 ^ 2) by nra. assert (B' : c2 ^ 2 = 1 - s2 ^ 2) by nra. assert (C' : sin l ^ 2 = 1 - cos l ^ 2) by nra. ring [A' B' C'].
Qed.
Lemma q_le l : 0 < sin (sg l) -> 0 <= 1 - xx l ^ 2 /\ Rabs ((1 - xx l ^ 2) * cos (sg l) - 2 * s1 * s2) <= 1 - xx l ^ 2.
Proof.
  intros H. pose proof (cos2_eq l H) as E. set (c := 1 - xx l ^ 2) in *. set (k := cos (sg l)) in *. assert (S2 : sin (sg l) ^ 2 = 1 - k ^ 2) by apply sin_pow2.
  set (ss := sin (sg l)) in *. assert (SP : 0 < ss ^ 2) by (apply pow_lt; exact H). assert (K : -1 <= k <= 1) by apply COS_bound.
  assert (M : forall x y, x * ss ^ 2 <= y * ss ^ 2 -> x <= y) by (intros x y X; apply Rmult_le_reg_r with (ss ^ 2); assumption).
  pose proof (pow2_ge_0 (s1 + s2)). pose proof (pow2_ge_0 (s1 - s2)). split.
  - apply M. rewrite E. nra.
  - apply Rabs_le. split; apply M.
    + replace (- c * ss ^ 2) with (- (c * ss ^ 2)) by ring. replace ((c * k - 2 * s1 * s2) * ss ^ 2) with (c * ss ^ 2 * k - 2 * s1 * s2 * ss ^ 2) by ring. rewrite E, S2.
      assert (0 <= (1 + k) * (s1 - s2) ^ 2) by (apply Rmult_le_pos; lra). nra.
    + replace ((c * k - 2 * s1 * s2) * ss ^ 2) with (c * ss ^ 2 * k - 2 * s1 * s2 * ss ^ 2) by ring. rewrite E, S2.
      assert (0 <= (1 - k) * (s1 + s2) ^ 2) by (apply Rmult_le_pos; lra). nra.
Qed.
Lemma sg_mono l l' : 0 <= l -> l <= l' -> l' <= PI -> sg l <= sg l'.
Proof.
  intros A B C. destruct (sg_cs l) as (E & R1 & _). destruct (sg_cs l') as (E' & R2 & _). destruct c_pos as [P1 P2].
  apply Rnot_lt_le. intros X. assert (D : cos (sg l) < cos (sg l')) by (apply cos_decreasing_1; lra).
  assert (cos l' <= cos l) by (apply cos_decr_1; lra). assert (0 < c1 * c2) by (apply Rmult_lt_0_compat; lra). nra.
Qed.
Lemma sg_lip l l' : 0 <= l -> l <= l' -> l' <= PI -> sg l' <= sg l + (l' - l).
Proof.
  intros A B C. assert (SA : forall x, 0 <= x <= PI -> sg x = unit_angle (unit_normal U1 0) (unit_normal U2 x)).
  { intros x Hx. transitivity (v_sigma U1 U2 (lon_gap 0 x)); [unfold sg; now rewrite L_vincenty5.lon_gap_0|apply v_sigma_angle]. }
  rewrite !SA by lra. eapply Rle_trans; [apply (angle_triangle _ (unit_normal U2 l)); apply L_ecef.unit_normal_unit|]. apply Rplus_le_compat_l.
  unfold unit_angle. rewrite <- (acos_cos (l' - l)) by lra. pose proof (acos_bound (cos (l' - l))). 
  assert (D : cos (l' - l) <= vdot (unit_normal U2 l) (unit_normal U2 l')).
  { unfold unit_normal. cbn [vdot]. replace (cos U2 * cos l * (cos U2 * cos l') + cos U2 * sin l * (cos U2 * sin l') + sin U2 * sin U2) with (cos U2 ^ 2 * cos (l' - l) + sin U2 ^ 2) by (rewrite cos_minus; ring).
    pose proof (sc1 U2). pose proof (COS_bound (l' - l)). assert (0 <= sin U2 ^ 2) by apply pow2_ge_0. nra. }
  assert (R1 : -1 <= vdot (unit_normal U2 l) (unit_normal U2 l') <= 1) by (apply unit_dot_range; apply L_ecef.unit_normal_unit).
  apply Rnot_lt_le. intros X. pose proof (acos_bound (vdot (unit_normal U2 l) (unit_normal U2 l'))).
  assert (cos (acos (vdot (unit_normal U2 l) (unit_normal U2 l'))) < cos (acos (cos (l' - l)))) as Y by (apply cos_decreasing_1; lra). rewrite !cos_acos in Y by (try assumption; apply COS_bound). lra.
Qed.
(** ** Contraction *)
Lemma sg_open l : 0 < sg l <= 29 / 10 -> 0 < sin (sg l).
Proof. intros H. apply sin_gt_0; [lra|pose proof pi_31; lra]. Qed.
Lemma HH_rate l : 0 <= l <= PI -> 0 < sg l <= 29 / 10 -> exists d, is_derive HH l d /\ Rabs d <= 314 / 10.
Proof.
  intros Hl Hs. pose proof (sg_open l Hs) as SP. eexists. split; [apply (HH_derive l SP)|].
  destruct (xx_le l SP Hl) as [X1 _]. destruct c_pos as [P1 P2]. set (x := xx l) in *.
  pose proof (L_vincenty2.abs_cos (sg l)) as KB. pose proof (L_vincenty2.abs_cos l) as CL. pose proof (L_vincenty2.abs_sin (sg l)) as SB. pose proof (sin_low (sg l) ltac:(lra)) as SL. destruct (q_le l SP) as [Q0 Q1]. fold x in Q0, Q1.
  set (q := (1 - x ^ 2) * cos (sg l) - 2 * s1 * s2) in *. set (y := xx' l * sin (sg l)).
  assert (HG : Rabs (c1 * c2 * cos l) <= 1).
  { replace 1 with (1 * 1 * 1) by ring. apply Rabs_mul_le; [apply Rabs_mul_le; rewrite Rabs_right; lra|exact CL]. }
  assert (HY : Rabs (y / 2) <= 1).
  { assert (Ey : y = c1 * c2 * cos l - x ^ 2 * cos (sg l)) by (unfold y, xx'; fold x; field; lra).
    assert (Rabs (x ^ 2 * cos (sg l)) <= 1 * 1) by (apply Rabs_mul_le; [rewrite Rabs_right; nra|exact KB]).
    assert (Rabs y <= 2) by (rewrite Ey; unfold Rminus; eapply Rle_trans; [apply Rabs_triang|]; rewrite Rabs_Ropp; lra). unfold Rdiv. rewrite Rabs_mult, (Rabs_right (/ 2)); lra. }
  set (r := sg l / sin (sg l)). assert (HR : Rabs (r / 15) <= 1).
  { assert (0 < / sin (sg l)) by (now apply Rinv_0_lt_compat). assert (0 <= r <= 15); [|rewrite Rabs_right; lra]. unfold r. split; [apply Rmult_le_pos; lra|].
    apply Rmult_le_reg_r with (sin (sg l)); [lra|]. unfold Rdiv. rewrite Rmult_assoc, Rinv_l; lra. }
  assert (HQ : Rabs (q / 3) <= 1) by (unfold Rdiv; rewrite Rabs_mult, (Rabs_right (/ 3)) by lra; pose proof (pow2_ge_0 x); lra).
  assert (HX : Rabs x <= 1) by (rewrite Rabs_right; lra).
  pose proof (dHH_bound x (y / 2) (r / 15) (q / 3) (sin (sg l)) (cos (sg l)) (c1 * c2 * cos l) HX HY HR HQ SB KB HG) as D.
  replace (2 * (y / 2)) with y in D by field. replace (15 * (r / 15)) with r in D by field. replace (3 * (q / 3)) with q in D by field.
  set (d := dHH x y r q _ _ _) in *. set (m := 30 * (y / 2 * (r / 15)) + x ^ 2) in *.
  assert (HM : Rabs m <= 31).
  { unfold m. eapply Rle_trans; [apply Rabs_triang|]. rewrite (Rabs_right (x ^ 2)) by (apply Rle_ge, pow2_ge_0). rewrite Rabs_mult, (Rabs_right 30) by lra.
    assert (Rabs (y / 2 * (r / 15)) <= 1 * 1) by (now apply Rabs_mul_le). pose proof (pow2_ge_0 (sin U1)). nra. }
  replace d with (d - m + m) by ring. eapply Rle_trans; [apply Rabs_triang|]. rewrite pow_1 in D. lra.
Qed.
Lemma HH_lip l l' : 0 <= l -> l <= l' -> l' <= PI -> 0 < sg l -> sg l' <= 29 / 10 -> Rabs (HH l' - HH l) <= 314 / 10 * (l' - l).
Proof.
  intros A B C D E. destruct (Req_dec l l') as [->|N]; [rewrite Rminus_diag_eq, Rabs_R0 by reflexivity; lra|].
  destruct (mvt HH (Derive HH) l l' ltac:(lra)) as (z & Ez & Hz).
  - intros z Hz. pose proof (sg_mono l z A (proj1 Hz) ltac:(lra)). pose proof (sg_mono z l' ltac:(lra) (proj2 Hz) C). destruct (HH_rate z ltac:(lra) ltac:(lra)) as (d & Dd & _). rewrite (is_derive_unique _ _ _ Dd). exact Dd.
  - pose proof (sg_mono l z A ltac:(lra) ltac:(lra)). pose proof (sg_mono z l' ltac:(lra) ltac:(lra) C). destruct (HH_rate z ltac:(lra) ltac:(lra)) as (d & Dd & Bd). rewrite (is_derive_unique _ _ _ Dd) in Ez.
    rewrite Ez, Rabs_mult, (Rabs_right (l' - l)) by lra. apply Rmult_le_compat_r; lra.
Qed.
End Vdist.
