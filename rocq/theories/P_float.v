(** Property C56: floating-point facts the angle code relies on. *)
From Coq Require Import Reals ZArith Lra Lia Psatz.
From Flocq Require Import Core Sterbenz Div_sqrt_error Pff2Flocq.
From Verif Require Import PyMath M_time M_karney M_float.
From Verif Require L_PyMath.
Open Scope R_scope.

#[local] Instance prec53 : Prec_gt_0 53 := eq_refl.
#[local] Instance vexp : Valid_exp fexp64 := FLT_exp_valid (-1074) 53.
#[local] Instance mexp : Monotone_exp fexp64 := FLT_exp_monotone (-1074) 53.
Lemma rnd_id x : double x -> rnd x = x.
Proof. intros H. apply round_generic; [apply valid_rnd_N|exact H]. Qed.
Lemma rnd_double x : double (rnd x).
Proof. apply generic_format_round; [apply vexp|apply valid_rnd_N]. Qed.
Lemma rnd_le x y : x <= y -> rnd x <= rnd y.
Proof. apply round_le; [apply vexp|apply valid_rnd_N]. Qed.
Lemma rnd_opp x : rnd (- x) = - rnd x.
Proof. apply round_NE_opp. Qed.
Lemma double_opp x : double x -> double (- x).
Proof. apply generic_format_opp. Qed.
Lemma double_int z : (Z.abs z < 2 ^ 53)%Z -> double (IZR z).
Proof.
  intros H. destruct (Z.eq_dec z 0) as [->|N]; [apply generic_format_0|]. replace (IZR z) with (F2R (Float radix2 z 0)) by (unfold F2R; cbn; ring). apply generic_format_F2R. intros _. unfold cexp, fexp64, FLT_exp.
  assert (M : (mag radix2 (F2R (Float radix2 z 0)) <= 53)%Z); [|lia].
  apply mag_le_bpow; [unfold F2R; cbn; rewrite Rmult_1_r; now apply IZR_neq|]. unfold F2R. cbn [Fnum Fexp bpow]. rewrite Rmult_1_r, <- abs_IZR. apply Rlt_le_trans with (IZR (2 ^ 53)); [now apply IZR_lt|].
  cbn. lra.
Qed.
(** ** C56 *)
(** The compensated sum loses nothing. *)
Theorem C56_sum_error_exact : forall u v, double u -> double v ->
  let '(s, t) := fl_sum_error u v in s + t = u + v /\ double s /\ double t /\ s = rnd (u + v).
Proof.
  intros u v Hu Hv. unfold fl_sum_error. cbv zeta. unfold fl_add at 1 2, fl_sub.
  pose proof (TwoSum_correct (-1074) 53 (fun x => negb (Z.even x)) eq_refl ltac:(lia)) as T.
  split; [|split; [apply rnd_double|split; [apply double_opp, rnd_double|reflexivity]]].
  assert (C : forall x : Z, negb (Z.even x) = negb (negb (Z.even (- (x + 1))))).
  { intros x. rewrite Z.even_opp, Z.even_add. cbn. destruct (Z.even x); reflexivity. }
  specialize (T C v u Hv Hu). cbv zeta in T. change (round radix2 (FLT_exp (-1074) 53) (Znearest (fun x : Z => negb (Z.even x)))) with rnd in T.
  rewrite (Rplus_comm u v). etransitivity; [|exact T]. unfold fl_add. rewrite ?(Rplus_comm u v). f_equal. unfold fl_add. rewrite <- rnd_opp. f_equal.
  replace (v - rnd (rnd (v + u) - rnd (rnd (v + u) - v))) with (- (rnd (rnd (v + u) - rnd (rnd (v + u) - v)) - v)) by ring.
  replace (u - rnd (rnd (v + u) - v)) with (- (rnd (rnd (v + u) - v) - u)) by ring. rewrite !rnd_opp, (Rplus_comm v u). ring.
Qed.
(** fmod is exact. *)
Theorem C56_fmod_exact : forall x m, double x -> double m -> fl_fmod x m = x - m * IZR (Ztrunc (x / m)).
Proof.
  intros x m Hx Hm. unfold fl_fmod. apply rnd_id. rewrite Rmult_comm. apply format_REM; auto; try apply vexp; try apply mexp; try apply valid_rnd_ZR.
  intros H. apply Rabs_lt_inv in H. destruct (Rle_lt_dec 0 (x / m)) as [P|P]; [rewrite Ztrunc_floor by exact P; apply Zfloor_imp; cbn; lra|rewrite Ztrunc_ceil by lra; apply Zceil_imp; cbn; lra].
Qed.
Lemma trunc_py_int x : py_int x = Ztrunc x.
Proof.
  unfold py_int, Ztrunc, Int_part, Zfloor, Zceil, Zfloor. destruct (Rle_dec 0 x) as [H|H].
  - rewrite Rlt_bool_false by lra. reflexivity.
  - rewrite Rlt_bool_true by lra. reflexivity.
Qed.
Lemma d360 : double 360. Proof. apply (double_int 360). reflexivity. Qed.
(** Reduction of an angle to (-180, 180] is exact: the floating-point code computes the
    same number as the real-valued model used by the other theorems. *)
Theorem C56_angle_reduction_exact : forall x, double x -> fl_AngNormalize x = AngNormalize x /\ double (fl_AngNormalize x).
Proof.
  intros x Hx. unfold fl_AngNormalize, AngNormalize. assert (E : fl_fmod x 360 = fmod x 360.0) by (unfold fmod; rewrite trunc_py_int; replace 360.0 with 360 by lra; apply C56_fmod_exact; [exact Hx|exact d360]).
  assert (D : double (fl_fmod x 360)) by (apply rnd_double). rewrite <- E. set (y := fl_fmod x 360) in *.
  assert (B : -360 < y < 360).
  { rewrite E. unfold fmod. rewrite trunc_py_int. replace 360.0 with 360 by lra. destruct (Rle_lt_dec 0 (x / 360)) as [H|H].
    - rewrite Ztrunc_floor by exact H. pose proof (Zfloor_lb (x/360)). pose proof (Zfloor_ub (x/360)). assert (x = 360 * (x/360)) by field. nra.
    - rewrite Ztrunc_ceil by lra. pose proof (Zceil_ub (x/360)). pose proof (Zceil_lb (x/360)). assert (x = 360 * (x/360)) by field. nra. }
  destruct (Rle_dec y (-180)) as [H|H].
  - assert (F : double (y + 360)). { replace (y + 360) with (360 - - y) by ring. apply sterbenz; [apply vexp|apply mexp|exact d360|now apply double_opp|lra]. }
    unfold fl_add. rewrite rnd_id by exact F. split; [lra|exact F].
  - destruct (Rlt_dec 180 y).
    + assert (F : double (y - 360)). { apply sterbenz; [apply vexp|apply mexp|exact D|exact d360|lra]. }
      unfold fl_sub. rewrite rnd_id by exact F. split; [lra|exact F].
    + split; [reflexivity|exact D].
Qed.
(** The difference of two angles, returned as a leading part and a correction, is exact
    modulo whole turns, for every pair of doubles. *)
Theorem C56_angle_difference_exact : forall x y, double x -> double y ->
  let '(d, t) := fl_AngDiff x y in exists k : Z, d + t = y - x + 360 * IZR k.
Proof.
  intros x y Hx Hy. unfold fl_AngDiff. pose proof (C56_sum_error_exact (- x) y (double_opp x Hx) Hy) as S. destruct (fl_sum_error (- x) y) as [d t]. destruct S as (S & Hd & Ht & _).
  destruct (C56_angle_reduction_exact d Hd) as [N Dn]. set (d' := fl_AngNormalize d) in *.
  assert (K : exists k : Z, d' = d + 360 * IZR k).
  { rewrite N. unfold AngNormalize, fmod. cbv zeta. replace 360.0 with 360 by lra. set (q := py_int (d / 360)). destruct (Rle_dec _ _); [exists (1 - q)%Z|destruct (Rlt_dec _ _); [exists (-1 - q)%Z|exists (- q)%Z]]; rewrite ?minus_IZR, ?opp_IZR; ring. }
  destruct K as [k K]. destruct (Req_EM_T (Rabs d') 180) as [E|E].
  - assert (D180 : double (copysign 180 (- t))). { unfold copysign. destruct (Rlt_dec _ _); rewrite Rabs_right by lra; [apply (double_int (-180)); reflexivity|apply (double_int 180); reflexivity]. }
    pose proof (C56_sum_error_exact _ t D180 Ht) as S2. destruct (fl_sum_error _ t) as [a b]. destruct S2 as (S2 & _).
    assert (K2 : exists k2 : Z, copysign 180 (- t) = d' + 360 * IZR k2).
    { unfold copysign. rewrite (Rabs_right 180) by lra. assert (d' = 180 \/ d' = -180) as [-> | ->] by (unfold Rabs in E; destruct (Rcase_abs d'); lra);
      (destruct (Rlt_dec _ _); [|]); first [exists 0%Z; lra|exists 1%Z; lra|exists (-1)%Z; lra]. }
    destruct K2 as [k2 K2]. exists (k + k2)%Z. rewrite plus_IZR. lra.
  - pose proof (C56_sum_error_exact _ t Dn Ht) as S2. destruct (fl_sum_error d' t) as [a b]. destruct S2 as (S2 & _). exists k. lra.
Qed.
(** Python's [x % m] for m > 0: a double between 0 and m inclusive; equal to the exact
    remainder when x >= 0, and otherwise within half a unit in the last place of m. *)
Theorem C56_mod_range : forall x m, double x -> double m -> 0 < m -> 0 <= fl_mod x m <= m /\ double (fl_mod x m).
Proof.
  intros x m Hx Hm Pm. unfold fl_mod. rewrite (C56_fmod_exact x m Hx Hm). assert (D : double (x - m * IZR (Ztrunc (x / m)))) by (rewrite <- (C56_fmod_exact x m Hx Hm); apply rnd_double).
  set (r := x - m * IZR (Ztrunc (x / m))) in *. assert (B : - m < r < m).
  { unfold r. assert (x = m * (x / m)) by (field; lra). destruct (Rle_lt_dec 0 (x / m)) as [H0|H0].
    - rewrite Ztrunc_floor by exact H0. pose proof (Zfloor_lb (x/m)). pose proof (Zfloor_ub (x/m)). nra.
    - rewrite Ztrunc_ceil by lra. pose proof (Zceil_ub (x/m)). pose proof (Zceil_lb (x/m)). nra. }
  destruct (Req_EM_T r 0); [split; [lra|apply generic_format_0]|]. destruct (Rlt_dec r 0) as [L|L]; (destruct (Rlt_dec m 0); [lra|]).
  - split; [|apply rnd_double]. unfold fl_add. rewrite <- (rnd_id m Hm) at 3. rewrite <- (rnd_id 0 (generic_format_0 _ _)) at 1. split; apply rnd_le; lra.
  - split; [lra|exact D].
Qed.
Theorem C56_mod_value : forall x m, double x -> double m -> 0 < m ->
  fl_mod x m = rnd (py_mod x m) /\ (0 <= x -> fl_mod x m = py_mod x m).
Proof.
  intros x m Hx Hm Pm. unfold fl_mod. rewrite (C56_fmod_exact x m Hx Hm). assert (D : double (x - m * IZR (Ztrunc (x / m)))) by (rewrite <- (C56_fmod_exact x m Hx Hm); apply rnd_double).
  assert (xe : x = m * (x / m)) by (field; lra).
  assert (U : forall k : Z, 0 <= x - m * IZR k < m -> py_mod x m = x - m * IZR k).
  { intros k Hk. unfold py_mod. do 3 f_equal. apply L_PyMath.Int_part_unique. split; [|]; apply Rmult_lt_reg_l with m || apply Rmult_le_reg_l with m; try lra; rewrite <- xe; lra. }
  set (r := x - m * IZR (Ztrunc (x / m))) in *. destruct (Rle_lt_dec 0 (x / m)) as [H0|H0].
  - assert (0 <= x) by (rewrite xe; apply Rmult_le_pos; lra). assert (Br : 0 <= r < m).
    { unfold r. rewrite Ztrunc_floor by exact H0. pose proof (Zfloor_lb (x/m)). pose proof (Zfloor_ub (x/m)). nra. }
    pose proof (U _ Br) as V. fold r in V. rewrite V. destruct (Req_EM_T r 0) as [->|]; [split; [now rewrite rnd_id by apply generic_format_0|auto]|]. destruct (Rlt_dec r 0); [lra|]. destruct (Rlt_dec m 0); [lra|]. rewrite (rnd_id r D). auto.
  - assert (x < 0) by (rewrite xe; nra). assert (Br : - m < r <= 0).
    { unfold r. rewrite Ztrunc_ceil by lra. pose proof (Zceil_ub (x/m)). pose proof (Zceil_lb (x/m)). nra. }
    split; [|lra]. destruct (Req_EM_T r 0) as [Z|Z].
    + rewrite (U (Ztrunc (x/m))) by (fold r; lra). fold r. rewrite Z. now rewrite rnd_id by apply generic_format_0.
    + destruct (Rlt_dec r 0); [|lra]. destruct (Rlt_dec m 0); [lra|]. unfold fl_add. f_equal. rewrite (U (Ztrunc (x/m) - 1)%Z); rewrite minus_IZR; unfold r; [ring|]. unfold r in Br, Z. lra.
Qed.
(** The value m itself does occur: the remainder of the smallest negative double is m. *)
Theorem C56_mod_reaches_modulus : forall m, double m -> 1 <= m -> double (- bpow radix2 (-1074)) /\ fl_mod (- bpow radix2 (-1074)) m = m.
Proof.
  intros m Hm Pm. assert (Hx : double (- bpow radix2 (-1074))). { apply double_opp. apply generic_format_bpow. unfold fexp64, FLT_exp. lia. }
  split; [exact Hx|]. destruct (C56_mod_value _ m Hx Hm ltac:(lra)) as [V _]. rewrite V.
  assert (B : 0 < bpow radix2 (-1074) < bpow radix2 (-54)) by (split; [apply bpow_gt_0|apply bpow_lt; lia]). assert (B2 : bpow radix2 (-54) < 1) by (change 1 with (bpow radix2 0); apply bpow_lt; lia).
  assert (P : py_mod (- bpow radix2 (-1074)) m = m - bpow radix2 (-1074)).
  { unfold py_mod. rewrite (L_PyMath.Int_part_unique _ (-1)); [ring|]. assert (E : - bpow radix2 (-1074) = m * (- bpow radix2 (-1074) / m)) by (field; lra). split; [apply Rmult_le_reg_l with m|apply Rmult_lt_reg_l with m]; try lra; rewrite <- E; lra. }
  rewrite P. apply Rle_antisym.
  - rewrite <- (rnd_id m Hm) at 2. apply rnd_le. lra.
  - unfold rnd. apply round_N_ge_midp; try apply vexp; [exact Hm|].
    assert (Pm2 : bpow radix2 (-1) <= pred radix2 fexp64 m).
    { apply pred_ge_gt; [apply vexp|apply generic_format_bpow; unfold fexp64, FLT_exp; lia|exact Hm|]. apply Rlt_le_trans with (bpow radix2 0); [apply bpow_lt; lia|cbn; lra]. }
    assert (Up : bpow radix2 (-53) <= ulp radix2 fexp64 (pred radix2 fexp64 m)).
    { replace (bpow radix2 (-53)) with (ulp radix2 fexp64 (bpow radix2 (-1))) by (rewrite ulp_bpow; reflexivity). apply ulp_le_pos; [apply vexp|apply mexp|apply bpow_ge_0|exact Pm2]. }
    assert (E : pred radix2 fexp64 m + ulp radix2 fexp64 (pred radix2 fexp64 m) = m) by (apply pred_plus_ulp; [apply vexp|lra|exact Hm]).
    assert (B3 : bpow radix2 (-54) + bpow radix2 (-54) = bpow radix2 (-53)) by (change (-53)%Z with (1 + -54)%Z; rewrite bpow_plus; change (bpow radix2 1) with 2; ring). lra.
Qed.
(** Rounding of small angles: moves an angle by at most 2^-58 degrees, keeps its sign,
    changes nothing from 1/16 degree up, and leaves no nonzero angle below 2^-57. *)
Lemma z16 : 1 / 16 = bpow radix2 (-4). Proof. cbn. lra. Qed.
Lemma d16 : double (1 / 16). Proof. rewrite z16. apply generic_format_bpow. unfold fexp64, FLT_exp. lia. Qed.
Lemma d32 : double (1 / 32). Proof. replace (1/32) with (bpow radix2 (-5)) by (cbn; lra). apply generic_format_bpow. unfold fexp64, FLT_exp. lia. Qed.
Lemma mag_16 x : 1/32 <= x < 1/16 -> mag radix2 x = (-4)%Z :> Z.
Proof. intros H. apply mag_unique. rewrite Rabs_right by lra. cbn [bpow Z.add Z.sub]. change (-4 - 1)%Z with (-5)%Z. cbn. lra. Qed.
Lemma fl_round_parts y : double y -> 0 <= y < 1 / 16 -> let w := fl_sub (1/16) (fl_sub (1/16) y) in Rabs (w - y) <= bpow radix2 (-58) /\ 0 <= w <= 1/16 /\ (w = 0 \/ bpow radix2 (-57) <= w).
Proof.
  intros Hy B w. destruct (Rle_lt_dec y (1/32)) as [L|L].
  - assert (A : 1/32 <= fl_sub (1/16) y <= 1/16).
    { unfold fl_sub. rewrite <- (rnd_id _ d32) at 1. rewrite <- (rnd_id _ d16) at 3. split; apply rnd_le; lra. }
    assert (Er : Rabs (fl_sub (1/16) y - (1/16 - y)) <= bpow radix2 (-58)).
    { destruct (Rle_lt_dec y 0) as [Z|Z].
      - replace y with 0 by lra. rewrite Rminus_0_r. unfold fl_sub. rewrite Rminus_0_r, (rnd_id _ d16), Rminus_diag_eq, Rabs_R0 by reflexivity. apply bpow_ge_0.
      - unfold fl_sub, rnd. eapply Rle_trans; [apply error_le_half_ulp; apply vexp|]. rewrite ulp_neq_0 by lra. unfold cexp. rewrite (mag_16 (1/16 - y)) by lra. change (fexp64 (-4)) with (-57)%Z.
        change (-57)%Z with (1 + -58)%Z. rewrite bpow_plus. change (bpow radix2 1) with 2. lra. }
    assert (Da : double (fl_sub (1/16) y)) by apply rnd_double. set (a := fl_sub (1/16) y) in *.
    assert (W : w = 1/16 - a). { unfold w, fl_sub. fold a. apply rnd_id. apply sterbenz; [apply vexp|apply mexp|exact d16|exact Da|lra]. }
    rewrite W. split; [replace (1/16 - a - y) with (- (a - (1/16 - y))) by ring; now rewrite Rabs_Ropp|]. split; [lra|].
    destruct (Rle_lt_dec (1/16) a) as [G|G]; [left; lra|].
    assert (F : a = IZR (Ztrunc (scaled_mantissa radix2 fexp64 a)) * bpow radix2 (-57)).
    { pose proof Da as Q. unfold double, generic_format in Q. rewrite Q at 1. unfold F2R. cbn [Fnum Fexp]. f_equal. unfold cexp. rewrite (mag_16 a) by lra. reflexivity. }
    set (n := Ztrunc (scaled_mantissa radix2 fexp64 a)) in *.
    assert (Z16 : 1/16 = IZR (2 ^ 53) * bpow radix2 (-57)). { rewrite z16. change (IZR (2 ^ 53)) with (bpow radix2 53). now rewrite <- bpow_plus. }
    pose proof (bpow_gt_0 radix2 (-57)) as Pb. assert (Hn : (n < 2 ^ 53)%Z). { apply lt_IZR. apply Rmult_lt_reg_r with (bpow radix2 (-57)); [exact Pb|]. rewrite <- F, <- Z16. exact G. }
    right. rewrite Z16, F, <- Rmult_minus_distr_r, <- minus_IZR. assert (1 <= IZR (2 ^ 53 - n)) by (apply IZR_le; lia). nra.
  - assert (A : fl_sub (1/16) y = 1/16 - y). { unfold fl_sub. apply rnd_id. apply sterbenz; [apply vexp|apply mexp|exact d16|exact Hy|lra]. }
    assert (W : w = y). { unfold w. rewrite A. unfold fl_sub. replace (1/16 - (1/16 - y)) with y by ring. now apply rnd_id. }
    rewrite W, Rminus_diag_eq, Rabs_R0 by reflexivity. split; [apply bpow_ge_0|]. split; [lra|]. right. apply Rle_trans with (bpow radix2 (-5)); [apply bpow_le; lia|cbn; lra].
Qed.
Theorem C56_angle_rounding : forall x, double x ->
  Rabs (fl_AngRound x - x) <= / 2 ^ 58 /\ (1 / 16 <= Rabs x -> fl_AngRound x = x) /\
  (fl_AngRound x = 0 \/ / 2 ^ 57 <= Rabs (fl_AngRound x)) /\ 0 <= fl_AngRound x * x.
Proof.
  intros x Hx. assert (Ha : double (Rabs x)) by (now apply generic_format_abs). pose proof (Rabs_pos x) as P. unfold fl_AngRound.
  assert (C : forall w, 0 <= w -> (copysign w x - x = (if Rlt_dec x 0 then -1 else 1) * (w - Rabs x)) /\ Rabs (copysign w x) = w /\ (w = 0 -> copysign w x = 0) /\ 0 <= copysign w x * x).
  { intros w Hw. unfold copysign. rewrite (Rabs_right w) by lra. destruct (Rlt_dec x 0); [rewrite (Rabs_left x) by lra|rewrite (Rabs_right x) by lra]; (split; [ring|]); (split; [rewrite ?Rabs_Ropp; apply Rabs_right; lra|]); (split; [lra|nra]). }
  replace (/ 2 ^ 58) with (bpow radix2 (-58)) by (cbn; lra). replace (/ 2 ^ 57) with (bpow radix2 (-57)) by (cbn; lra).
  destruct (Rlt_dec (Rabs x) (1/16)) as [L|L].
  - destruct (fl_round_parts (Rabs x) Ha (conj P L)) as (E1 & E2 & E3). set (w := fl_sub _ _) in *. destruct (C w (proj1 E2)) as (C1 & C2 & C3 & C4). rewrite C1, C2. split; [|split; [intros; lra|split; [|exact C4]]].
    + rewrite Rabs_mult. replace (Rabs (if Rlt_dec x 0 then -1 else 1)) with 1 by (destruct (Rlt_dec x 0); [rewrite Rabs_left by lra; lra|rewrite Rabs_right; lra]). lra.
    + destruct E3 as [E3|E3]; [left; now apply C3|now right].
  - destruct (C (Rabs x) P) as (C1 & C2 & C3 & C4). assert (E : copysign (Rabs x) x = x) by (unfold copysign; rewrite Rabs_Rabsolu; destruct (Rlt_dec x 0); [rewrite Rabs_left; lra|rewrite Rabs_right; lra]).
    rewrite E. split; [rewrite Rminus_diag_eq, Rabs_R0 by reflexivity; apply bpow_ge_0|]. split; [reflexivity|]. split; [|nra]. right. apply Rle_trans with (bpow radix2 (-4)); [apply bpow_le; lia|rewrite <- z16; lra].
Qed.
(** The hypotheses are met: 0.1's double and the double nearest 1e300. *)
Example C56_hypotheses_met : double (rnd (1/10)) /\ double (rnd (10 ^ 300)) /\ double 360 /\ rnd (1/10) <> 0.
Proof.
  split; [apply rnd_double|]. split; [apply rnd_double|]. split; [exact d360|]. assert (H : 1/16 <= rnd (1/10)) by (rewrite <- (rnd_id _ d16); apply rnd_le; lra). lra.
Qed.
