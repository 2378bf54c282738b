(** The loop of vdist ends before its limit unless the points are nearly antipodal. *)
From Coq Require Import Reals Lra Lia Psatz.
From Coquelicot Require Import Coquelicot.
From Verif Require Import PyMath M_vincenty Spec L_PyMath L_nvector L_series2 L_vincenty L_vincenty2 L_vincenty3 L_vin1 L_vin3.
Open Scope R_scope.

Section Loop.
Variables (f U1 U2 L : R).
Hypothesis F : 0 <= f <= 1 / 100.
Hypothesis V1 : - PI/2 < U1 < PI/2.
Hypothesis V2 : - PI/2 < U2 < PI/2.
Hypothesis L0 : 0 <= L <= PI.
Hypothesis S0 : 0 < sg U1 U2 L.
Hypothesis S1 : sg U1 U2 L + 4 * f <= 29 / 10.
Let s1 := sin U1. Let s2 := sin U2.
Definition vl (l : R) : R := let al := v_alpha (v_sinAlpha U1 U2 l) in v_lamb f L (v_sigma U1 U2 l) al (v_cos2sigmam U1 U2 l al).
Definition tube (l : R) : Prop := L <= l <= PI /\ l <= L + 4 * f.
Lemma tube_sg l : tube l -> 0 < sg U1 U2 l <= 29 / 10 /\ 0 < sin (sg U1 U2 l) /\ 0 <= l <= PI.
Proof.
  intros [A B]. pose proof (sg_mono U1 U2 V1 V2 L l ltac:(lra) ltac:(lra) ltac:(lra)). pose proof (sg_lip U1 U2 L l ltac:(lra) ltac:(lra) ltac:(lra)).
  assert (0 < sg U1 U2 l <= 29 / 10) by lra. split; [assumption|]. split; [now apply sg_open|lra].
Qed.
Lemma tiny16 : 0 < 1 / 10 ^ 16 < 1 / 10 ^ 12 /\ 1 / 10 ^ 12 < 1 / 1000.
Proof. simpl. lra. Qed.
Lemma sinAlpha_xx l : 0 < sin (sg U1 U2 l) -> v_sinAlpha U1 U2 l = xx U1 U2 l.
Proof. intros H. unfold v_sinAlpha. fold (sg U1 U2 l). destruct (Req_EM_T _ 0); [lra|reflexivity]. Qed.
Lemma kap_range c : 0 <= c <= 1 -> 0 <= kap f c <= 26 / 100 * f.
Proof. intros H. unfold kap. assert (0 <= f * (4 - 3 * c) <= 4 / 100) by (split; [apply Rmult_le_pos; lra|nra]). split; nra. Qed.
(** Size of the correction. *)
Lemma HH_parts l : tube l -> let x := xx U1 U2 l in let c := 1 - x ^ 2 in
  exists w, HH f U1 U2 l = (1 - vC f c) * (x * sg U1 U2 l + w) /\ Rabs w <= c / 100 /\ 0 <= vC f c <= c / 100 /\ 0 <= x <= 1 /\ 0 <= c <= 1.
Proof.
  intros T x c. destruct (tube_sg l T) as (SR & SP & LR). destruct (q_le U1 U2 l SP) as [Q0 Q1]. destruct (xx_le U1 U2 V1 V2 l SP LR) as [X1 _]. destruct (c_pos U1 U2 V1 V2) as [P1 P2].
  fold x in Q0, Q1, X1. fold c in Q0, Q1. assert (X01 : 0 <= x <= 1) by lra. assert (C01 : 0 <= c <= 1) by (unfold c; nra).
  pose proof (kap_range c C01) as K. assert (CC : vC f c = kap f c * c) by (unfold vC, kap; field).
  assert (KC : 0 <= kap f c * c <= 26 / 10000 * c) by nra. rewrite CC.
  unfold HH. fold x c. rewrite CC. eexists. split; [reflexivity|]. split; [|split; [lra|split; assumption]].
  set (q := c * cos (sg U1 U2 l) - 2 * sin U1 * sin U2) in *. set (ka := kap f c) in *. set (k := cos (sg U1 U2 l)).
  assert (P : Rabs (cos U1 * cos U2 * sin l) <= 1). { replace 1 with (1 * 1 * 1) by ring. apply Rabs_mul_le; [apply Rabs_mul_le; rewrite Rabs_right; lra|apply abs_sin]. }
  assert (KQ : Rabs (ka * q) <= 26 / 10000 * c) by (rewrite Rabs_mult, (Rabs_right ka) by lra; apply Rmult_le_compat; try lra; apply Rabs_pos).
  assert (KQ2 : (ka * q) ^ 2 <= (26 / 10000 * c) ^ 2) by (rewrite <- pow2_abs; apply pow_incr; split; [apply Rabs_pos|exact KQ]).
  assert (KC2 : 0 <= (ka * c) ^ 2 <= (26 / 10000 * c) ^ 2) by (split; [apply pow2_ge_0|apply pow_incr; lra]). pose proof (pow2_ge_0 (ka * q)) as KQ0.
  assert (C2 : (26 / 10000 * c) ^ 2 <= 1 / 1000 * c) by nra.
  assert (W2 : Rabs (k * (2 * (ka * q) ^ 2 - (ka * c) ^ 2)) <= 1 * (2 / 1000 * c)) by (apply Rabs_mul_le; [apply abs_cos|apply Rabs_le; lra]).
  replace (c / 100) with (1 * (c / 100)) by ring. apply Rabs_mul_le; [exact P|]. eapply Rle_trans; [apply Rabs_triang|]. lra.
Qed.
Lemma HH_small l : tube l -> Rabs (HH f U1 U2 l) <= 3.
Proof.
  intros T. destruct (tube_sg l T) as (SR & _ & _). destruct (HH_parts l T) as (w & -> & W & C & X & Q). replace 3 with (1 * 3) by ring. apply Rabs_mul_le; [rewrite Rabs_right; lra|].
  eapply Rle_trans; [apply Rabs_triang|]. assert (Rabs (xx U1 U2 l * sg U1 U2 l) <= 29 / 10); [|lra]. rewrite Rabs_right by (apply Rle_ge, Rmult_le_pos; lra). nra.
Qed.
(** One pass is L + f HH, exactly or - on the equator - nearly. *)
Definition equatorial (l : R) : Prop := 1 - xx U1 U2 l < 1 / 10 ^ 16.
Lemma alpha_cases l : tube l -> let al := v_alpha (v_sinAlpha U1 U2 l) in
  (equatorial l /\ al = PI / 2) \/ (sin al = xx U1 U2 l /\ cos al ^ 2 = 1 - xx U1 U2 l ^ 2 /\ 0 < 1 - xx U1 U2 l ^ 2).
Proof.
  intros T. destruct (tube_sg l T) as (SR & SP & LR). cbv zeta. rewrite (sinAlpha_xx l SP). destruct (xx_le U1 U2 V1 V2 l SP LR) as [X1 _]. destruct (c_pos U1 U2 V1 V2) as [P1 P2].
  set (x := xx U1 U2 l) in *. unfold v_alpha, equatorial. fold x. pose proof tiny16 as T16. destruct (Rlt_dec 1 x) as [A|A]; [lra|].
  destruct (Rlt_dec _ _) as [B|B].
  - left. split; [|reflexivity]. rewrite Rabs_left1 in B; lra.
  - right. apply Rnot_lt_le in B. rewrite Rabs_left1 in B by lra. split; [apply sin_asin; lra|]. split; [|nra]. rewrite cos_asin by lra. rewrite pow2_sqrt by (unfold Rsqr; nra). unfold Rsqr. ring.
Qed.
Lemma cos2sm_eq l : tube l -> let al := v_alpha (v_sinAlpha U1 U2 l) in cos al ^ 2 = 1 - xx U1 U2 l ^ 2 ->
  (1 - xx U1 U2 l ^ 2) <> 0 -> (1 - xx U1 U2 l ^ 2) * v_cos2sigmam U1 U2 l al = (1 - xx U1 U2 l ^ 2) * cos (sg U1 U2 l) - 2 * s1 * s2.
Proof. intros T al E N. unfold v_cos2sigmam. rewrite E. fold (sg U1 U2 l) s1 s2. field. exact N. Qed.
Lemma vl_eq l : tube l -> exists th, vl l = L + f * (HH f U1 U2 l + th) /\ Rabs th <= 1 / 10 ^ 15 /\ (equatorial l \/ th = 0).
Proof.
  intros T. destruct (tube_sg l T) as (SR & SP & LR). pose proof tiny16 as T16. destruct (alpha_cases l T) as [[Q E]|(E1 & E2 & E3)].
  - exists (sg U1 U2 l - HH f U1 U2 l). unfold vl. cbv zeta. rewrite E, v_lamb_equator. fold (sg U1 U2 l). split; [ring|]. split; [|now left].
    destruct (HH_parts l T) as (w & -> & W & C & X & Z). unfold equatorial in Q. set (x := xx U1 U2 l) in *. set (C' := vC f (1 - x ^ 2)) in *. set (S := sg U1 U2 l) in *.
    assert (CS : 1 - x ^ 2 <= 2 / 10 ^ 16) by (replace (2 / 10 ^ 16) with (2 * (1 / 10 ^ 16)) by (unfold Rdiv; ring); nra).
    replace (S - (1 - C') * (x * S + w)) with (S * (1 - x) + C' * (x * S) - (1 - C') * w) by ring.
    assert (A1 : Rabs (S * (1 - x)) <= 29 / 10 * (1 / 10 ^ 16)) by (apply Rabs_mul_le; rewrite Rabs_right; lra).
    assert (A2 : Rabs (C' * (x * S)) <= (1 - x ^ 2) / 100 * (1 * (29 / 10))) by (apply Rabs_mul_le; [rewrite Rabs_right; lra|apply Rabs_mul_le; rewrite Rabs_right; lra]).
    assert (A3 : Rabs ((1 - C') * w) <= 1 * ((1 - x ^ 2) / 100)) by (apply Rabs_mul_le; [rewrite Rabs_right; lra|exact W]).
    unfold Rminus at 1. eapply Rle_trans; [apply Rabs_triang|]. rewrite Rabs_Ropp. pose proof (Rabs_triang (S * (1 - x)) (C' * (x * S))) as TR.
    apply Rle_trans with (29 / 10 * (1 / 10 ^ 16) + (2 / 10 ^ 16) / 100 * (29 / 10) + 2 / 10 ^ 16 / 100); [lra|]. clear. simpl. lra.
  - exists 0. split; [|split; [rewrite Rabs_R0; clear; simpl; lra|now right]]. unfold vl. cbv zeta. unfold v_lamb, v_C. pose proof (cos2sm_eq l T E2 ltac:(lra)) as M. cbv zeta in M.
    set (al := v_alpha (v_sinAlpha U1 U2 l)) in *. set (m := v_cos2sigmam U1 U2 l al) in *. rewrite E1, E2. cbv zeta. fold (sg U1 U2 l). unfold HH. pose proof (xx_mul U1 U2 l SP) as XM.
    set (x := xx U1 U2 l) in *. unfold s1, s2 in M. rewrite <- M, <- XM. unfold vC, kap. field.
Qed.
(** A pass that took the equatorial branch is far from longitude pi. *)
Lemma equatorial_far l : tube l -> equatorial l -> l <= 3.
Proof.
  intros T Q. destruct (tube_sg l T) as (SR & SP & LR). destruct (xx_le U1 U2 V1 V2 l SP LR) as [[X0 X1] X2]. destruct (c_pos U1 U2 V1 V2) as [P1 P2]. unfold equatorial in Q. pose proof tiny16 as T16.
  set (x := xx U1 U2 l) in *. destruct (sg_cs U1 U2 l) as (C & _ & _). set (u1 := sin U1) in *. set (u2 := sin U2) in *. set (d1 := cos U1) in *. set (d2 := cos U2) in *.
  pose proof (sc1 U1) as A. pose proof (sc1 U2) as B. fold u1 d1 in A. fold u2 d2 in B. pose proof pi_31. pose proof pi_315.
  apply Rnot_lt_le. intros N. assert (CL : cos l <= - (988 / 1000)).
  { replace l with (PI - (PI - l)) by ring. rewrite cos_minus, cos_PI, sin_PI. destruct (cos_taylor (15 / 100)) as (th & TH & E). apply Rabs_le_between in TH.
    assert (cos (15 / 100) <= cos (PI - l)) by (apply cos_decr_1; lra). assert (988 / 1000 <= cos (15 / 100)) by (rewrite E; lra). lra. }
  assert (CS : - (981 / 1000) <= cos (sg U1 U2 l)).
  { replace (sg U1 U2 l) with (PI - (PI - sg U1 U2 l)) by ring. rewrite cos_minus, cos_PI, sin_PI. destruct (cos_taylor (1 / 5)) as (th & TH & E). apply Rabs_le_between in TH.
    assert (cos (PI - sg U1 U2 l) <= cos (1 / 5)) by (apply cos_decr_1; lra). assert (cos (1 / 5) <= 981 / 1000) by (rewrite E; lra). lra. }
  rewrite C in CS. assert (X9 : 9999 / 10000 <= x) by (clear - Q; simpl in Q; lra). assert (9998 / 10000 <= d1 * d2) by nra. assert (u1 * u1 <= 1 / 1000) by nra. assert (u2 * u2 <= 1 / 1000) by nra.
  assert (u1 * u2 <= 1 / 1000) by (pose proof (pow2_ge_0 (u1 - u2)); nra). nra.
Qed.
Lemma HH_pi : HH f U1 U2 PI = 0.
Proof. unfold HH, xx. rewrite sin_PI. unfold Rdiv. rewrite Rmult_0_r, !Rmult_0_l. ring. Qed.
Lemma vl_tube l : tube l -> tube (vl l).
Proof.
  intros T. pose proof (tube_sg l T) as (SR & SP & LR). pose proof T as [T1 T2]. destruct (vl_eq l T) as (th & E & TH & EQ). pose proof (HH_small l T) as HS. apply Rabs_le_between in HS. apply Rabs_le_between in TH.
  assert (TT : 1 / 10 ^ 15 <= 1 / 10) by (clear; simpl; lra).
  assert (GE : L <= vl l) by (apply (v_lamb_ge f L U1 U2 l); try assumption; lra). assert (UP : vl l <= L + 4 * f) by (rewrite E; nra).
  split; [split; [exact GE|]|exact UP].
  destruct (Rle_dec (L + 4 * f) PI) as [A|A]; [lra|apply Rnot_le_lt in A]. destruct EQ as [EQ|EQ].
  - pose proof (equatorial_far l T EQ). pose proof pi_31. rewrite E. nra.
  - assert (TP : tube PI) by (split; lra). pose proof (tube_sg PI TP) as (SR' & _ & _). pose proof (HH_lip f U1 U2 F V1 V2 l PI ltac:(lra) ltac:(lra) ltac:(lra) ltac:(lra) ltac:(lra)) as HL.
    rewrite HH_pi in HL. apply Rabs_le_between in HL. rewrite E, EQ. nra.
Qed.
Lemma vl_lip l l' : tube l -> tube l' -> Rabs (vl l' - vl l) <= 4 / 10 * Rabs (l' - l) + 2 / 10 ^ 15.
Proof.
  assert (G : forall l l', l <= l' -> tube l -> tube l' -> Rabs (vl l' - vl l) <= 4 / 10 * Rabs (l' - l) + 2 / 10 ^ 15).
  { intros x y O T T'. pose proof (tube_sg x T) as (SR & SP & LR). pose proof (tube_sg y T') as (SR' & _ & LR'). destruct (vl_eq x T) as (t & -> & TH & _). destruct (vl_eq y T') as (t' & -> & TH' & _).
    pose proof (HH_lip f U1 U2 F V1 V2 x y ltac:(lra) O ltac:(lra) ltac:(lra) ltac:(lra)) as HL. rewrite (Rabs_right (y - x)) by lra.
    replace (L + f * (HH f U1 U2 y + t') - (L + f * (HH f U1 U2 x + t))) with (f * ((HH f U1 U2 y - HH f U1 U2 x) + (t' - t))) by ring. rewrite Rabs_mult, (Rabs_right f) by lra.
    assert (A : Rabs (HH f U1 U2 y - HH f U1 U2 x + (t' - t)) <= 314 / 10 * (y - x) + 2 / 10 ^ 15).
    { eapply Rle_trans; [apply Rabs_triang|]. apply Rplus_le_compat; [exact HL|]. unfold Rminus. eapply Rle_trans; [apply Rabs_triang|]. rewrite Rabs_Ropp. replace (2 / 10 ^ 15) with (1 / 10 ^ 15 + 1 / 10 ^ 15) by (unfold Rdiv; ring). lra. }
    assert (P15 : 0 <= 2 / 10 ^ 15) by (clear; simpl; lra). pose proof (Rabs_pos (HH f U1 U2 y - HH f U1 U2 x + (t' - t))). nra. }
  intros T T'. destruct (Rle_dec l l') as [O|O]; [now apply G|]. rewrite Rabs_minus_sym, (Rabs_minus_sym l' l). apply G; [lra|assumption|assumption].
Qed.
Lemma half_49 k : (49 <= k)%nat -> 4 / 100 * (1 / 2) ^ k <= 1 / 10 ^ 12.
Proof.
  intros H. assert (A : (1 / 2) ^ k <= (1 / 2) ^ 40).
  { replace k with (40 + (k - 40))%nat by lia. rewrite pow_add. pose proof (pow_incr (1 / 2) 1 (k - 40) ltac:(lra)) as Q. rewrite pow1 in Q. pose proof (pow_le (1 / 2) 40 ltac:(lra)) as P.
    apply Rle_trans with ((1 / 2) ^ 40 * 1); [now apply Rmult_le_compat_l|lra]. }
  assert (B : (1 / 2) ^ 10 <= 1 / 1000) by (clear; simpl; lra). assert (C : (1 / 2) ^ 40 <= (1 / 1000) ^ 4).
  { change 40%nat with (10 * 4)%nat. rewrite pow_mult. apply pow_incr. split; [apply pow_le; lra|exact B]. }
  assert (D : (1 / 1000) ^ 4 = 1 / 10 ^ 12) by (clear; simpl; lra). assert (0 < 1 / 10 ^ 12) by (clear; simpl; lra). lra.
Qed.
Theorem loop_settles : forall n k l last, (50 <= n + k)%nat -> (1 <= n)%nat -> tube l -> Rabs (vl l - l) <= 4 / 100 * (1 / 2) ^ k ->
  exists l1, tube l1 /\ tube (vl l1) /\ Rabs (vl l1 - l1) <= 1 / 10 ^ 12 /\ vdist_loop n f L U1 U2 l last = (vl l1, v_state_of U1 U2 l1).
Proof.
  induction n as [|n IH]; intros k l last Hn Hn1 T G; [lia|]. pose proof (vl_tube l T) as T'. cbn [vdist_loop]. fold (vl l). change (v_lamb f L (v_sigma U1 U2 l) (v_alpha (v_sinAlpha U1 U2 l)) (v_cos2sigmam U1 U2 l (v_alpha (v_sinAlpha U1 U2 l)))) with (vl l).
  destruct (Rlt_dec PI (vl l)) as [A|_]; [destruct T'; lra|]. destruct (Rlt_dec _ _) as [A|A].
  - assert (K : (k < 49)%nat). { apply Nat.nle_gt. intros X. pose proof (half_49 k X). lra. }
    apply (IH (S k)); [lia|lia|exact T'|]. pose proof (vl_lip l (vl l) T T') as Q. assert (S15 : 2 / 10 ^ 15 <= 1 / 10 * (1 / 10 ^ 12)) by (clear; simpl; lra). rewrite <- (tech_pow_Rmult (1 / 2) k). lra.
  - exists l. split; [exact T|]. split; [exact T'|]. split; [lra|reflexivity].
Qed.
Theorem vdist_settles last : exists l1, tube l1 /\ tube (vl l1) /\ Rabs (vl l1 - l1) <= 1 / 10 ^ 12 /\ vdist_loop 50 f L U1 U2 L last = (vl l1, v_state_of U1 U2 l1).
Proof.
  assert (T : tube L) by (split; lra). apply (loop_settles 50 0); [lia|lia|exact T|]. pose proof (vl_tube L T) as [A B]. rewrite pow_O. rewrite Rabs_right; lra.
Qed.
End Loop.
