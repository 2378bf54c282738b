(** Angle helpers and series evaluation of the Karney solver. *)
From Coq Require Import Lia Psatz.
From Verif Require Import PyMath L_PyMath M_ellipsoid M_time M_karney.
From Verif Require L_earth.
Open Scope R_scope.

Lemma py_int_bounds x : Rabs (x - IZR (py_int x)) < 1 /\ (0 <= x -> 0 <= x - IZR (py_int x)) /\ (x <= 0 -> x - IZR (py_int x) <= 0).
Proof.
  unfold py_int. destruct (Rle_dec 0 x) as [H|H].
  - destruct (base_Int_part x) as [A B]. repeat split; intros; try lra. apply Rabs_def1; lra.
    + destruct (Req_dec x 0) as [->|]; [|lra]. assert (Int_part 0 = 0%Z) as ->; [|simpl; lra].
      change 0 with (IZR 0). apply Int_part_unique. simpl. lra.
  - destruct (base_Int_part (- x)) as [A B]. rewrite opp_IZR. repeat split; intros; try lra. apply Rabs_def1; lra.
Qed.
Lemma fmod_congr x m : exists k : Z, fmod x m = x + IZR k * m.
Proof. exists (- py_int (x / m))%Z. unfold fmod. rewrite opp_IZR. ring. Qed.
Lemma fmod_bounds x m : 0 < m -> - m < fmod x m < m /\ (0 <= x -> 0 <= fmod x m) /\ (x <= 0 -> fmod x m <= 0).
Proof.
  intros Hm. unfold fmod. destruct (py_int_bounds (x / m)) as (A & B & C). apply Rabs_def2 in A.
  set (q := IZR (py_int (x / m))) in *. assert (E : x - m * q = m * (x / m - q)) by (field; lra). rewrite E.
  split; [split; nra|]. split; intros H.
  - apply Rmult_le_pos; [lra|]. apply B. apply Rmult_le_pos; [lra|left; apply Rinv_0_lt_compat; lra].
  - assert (x / m - q <= 0); [|nra]. apply C. unfold Rdiv. assert (0 < / m) by (apply Rinv_0_lt_compat; lra). nra.
Qed.
Lemma AngNormalize_range x : -180 < AngNormalize x <= 180.
Proof.
  unfold AngNormalize. destruct (fmod_bounds x 360.0 ltac:(lra)) as [A _].
  destruct (Rle_dec _ _); [lra|]. destruct (Rlt_dec _ _); lra.
Qed.
Lemma AngNormalize_congr x : exists k : Z, AngNormalize x = x + IZR k * 360.
Proof.
  unfold AngNormalize. destruct (fmod_congr x 360.0) as [k Hk].
  destruct (Rle_dec _ _); [|destruct (Rlt_dec _ _)].
  - exists (k + 1)%Z. rewrite plus_IZR, Hk. simpl; lra.
  - exists (k - 1)%Z. rewrite minus_IZR, Hk. simpl; lra.
  - exists k. rewrite Hk. lra.
Qed.
(** Two angles congruent modulo 360 in the same half-open turn are equal. *)
Lemma turn_unique x y (k : Z) : -180 < x <= 180 -> -180 < y <= 180 -> x = y + IZR k * 360 -> x = y.
Proof.
  intros Hx Hy E. assert (-1 < IZR k < 1) by (split; nra). assert (k = 0)%Z.
  { assert (-1 < k < 1)%Z by (split; apply lt_IZR; lra). lia. }
  subst k. simpl in E. lra.
Qed.
Lemma AngNormalize_id x : -180 < x <= 180 -> AngNormalize x = x.
Proof. intros H. destruct (AngNormalize_congr x) as [k E]. apply (turn_unique _ _ k (AngNormalize_range x) H E). Qed.
Lemma AngNormalize_shift x (k : Z) : AngNormalize (x + IZR k * 360) = AngNormalize x.
Proof.
  destruct (AngNormalize_congr x) as [n E]. destruct (AngNormalize_congr (x + IZR k * 360)) as [n' E'].
  apply (turn_unique _ _ (k + n' - n)); try apply AngNormalize_range. rewrite E, E', minus_IZR, plus_IZR. ring.
Qed.
Lemma copysign_abs x : copysign (Rabs x) x = x.
Proof. unfold copysign. rewrite Rabs_Rabsolu. unfold Rabs. destruct (Rlt_dec x 0), (Rcase_abs x); lra. Qed.
Lemma AngRound_id x : AngRound x = x.
Proof.
  unfold AngRound. destruct (Rlt_dec _ _); [|apply copysign_abs].
  replace (1 / 16.0 - (1 / 16.0 - Rabs x)) with (Rabs x) by ring. apply copysign_abs.
Qed.
Lemma sum_error_exact u v : sum_error u v = (u + v, 0).
Proof. unfold sum_error. f_equal. ring. Qed.
Lemma AngDiff_eq x y : AngDiff x y = (AngNormalize (y - x), 0).
Proof.
  unfold AngDiff. rewrite sum_error_exact. replace (- x + y) with (y - x) by ring.
  pose proof (AngNormalize_range (y - x)) as Q. set (d := AngNormalize (y - x)) in *. rewrite sum_error_exact. f_equal.
  destruct (Req_EM_T (Rabs d) 180) as [E|E]; [|ring]. unfold copysign. rewrite Ropp_0. destruct (Rlt_dec 0 0); [lra|].
  rewrite Rabs_right by lra. unfold Rabs in E. destruct (Rcase_abs d); lra.
Qed.

Lemma sincosd_eq x : sincosd x = (sin (radians x), cos (radians x)).
Proof.
  unfold sincosd. set (q := round_half_even (fmod x 360.0 / 90.0)). clearbody q.
  destruct (fmod_congr x 360.0) as [k ->].
  assert (Sh : radians (x + IZR k * 360.0 - 90.0 * IZR q) = radians x - IZR q * (PI / 2) + IZR k * (2 * PI)) by (unfold radians; lra).
  rewrite Sh, sin_period_Z, cos_period_Z.
  pose proof (Z.div_mod q 4 ltac:(lia)) as D. pose proof (Z.mod_pos_bound q 4 ltac:(lia)) as B.
  set (m := (q mod 4)%Z) in *. set (d := (q / 4)%Z) in *. clearbody m d.
  assert (Q : radians x - IZR q * (PI / 2) = (radians x - IZR m * (PI/2)) + IZR (- d) * (2 * PI)).
  { rewrite D, plus_IZR, mult_IZR, opp_IZR. field. }
  rewrite Q, sin_period_Z, cos_period_Z. set (t := radians x). clearbody t. clear Q Sh D q k x.
  assert (C : m = 0%Z \/ m = 1%Z \/ m = 2%Z \/ m = 3%Z) by lia.
  destruct C as [->|[->|[->| ->]]]; cbn [Z.eqb Pos.eqb].
  - rewrite Rmult_0_l, Rminus_0_r. reflexivity.
  - rewrite Rmult_1_l, sin_minus, cos_minus, cos_PI2, sin_PI2. f_equal; ring.
  - replace (t - 2 * (PI / 2)) with (t - PI) by field. rewrite sin_minus, cos_minus, cos_PI, sin_PI. f_equal; ring.
  - replace (t - 3 * (PI / 2)) with (t - 3 * (PI / 2)) by ring.
    rewrite sin_minus, cos_minus, cos_3PI2, sin_3PI2. f_equal; ring.
Qed.

Lemma degrees_plus a b : degrees (a + b) = degrees a + degrees b.
Proof. unfold degrees, Rdiv. ring. Qed.
Lemma atan2d_eq y x : atan2d y x = degrees (atan2 y x).
Proof.
  pose proof PI_RGT_0 as P. unfold atan2d. cbv zeta.
  destruct (Rlt_dec (Rabs x) (Rabs y)) as [S|S].
  - destruct (Rlt_dec y 0) as [N|N].
    + assert (D : degrees (- (PI/2)) = -90.0) by (transitivity (-90); [unfold degrees; field; lra|lra]).
      rewrite <- D, <- degrees_plus. f_equal.
      symmetry. apply (atan2_unique _ _ _ (hypot x y)).
      * apply hypot_pos. right. lra.
      * pose proof (atan2_right x (- y) ltac:(lra)). 
        assert (- y <> 0) by lra. 
        assert (atan2 x (- y) <> PI/2 /\ atan2 x (-y) <> -PI/2).
        { rewrite atan2_pos by lra. pose proof (atan_bound (x / - y)). lra. }
        lra.
      * rewrite (Rplus_comm (- (PI/2))), sin_plus, sin_neg, cos_neg, cos_PI2, sin_PI2.
        pose proof (hypot_cos_atan2 x (- y)) as C. rewrite hypot_opp_l in C. rewrite hypot_comm in C. lra.
      * rewrite (Rplus_comm (- (PI/2))), cos_plus, sin_neg, cos_neg, cos_PI2, sin_PI2.
        pose proof (hypot_sin_atan2 x (- y)) as C. rewrite hypot_opp_l in C. rewrite hypot_comm in C. lra.
    + assert (0 < y). { destruct (Req_dec y 0) as [->|]; [|lra]. rewrite Rabs_R0 in S. pose proof (Rabs_pos x). lra. }
      assert (D : degrees (PI/2) = 90.0) by (transitivity 90; [unfold degrees; field; lra|lra]).
      rewrite <- D. replace (degrees (PI/2) - degrees (atan2 x y)) with (degrees (PI/2 + - atan2 x y)) by (unfold degrees, Rdiv; ring).
      f_equal. symmetry. apply (atan2_unique _ _ _ (hypot x y)).
      * apply hypot_pos. right. lra.
      * rewrite atan2_pos by lra. pose proof (atan_bound (x / y)). lra.
      * rewrite sin_plus, sin_neg, cos_neg, cos_PI2, sin_PI2.
        pose proof (hypot_cos_atan2 x y) as C. rewrite hypot_comm in C. lra.
      * rewrite cos_plus, sin_neg, cos_neg, cos_PI2, sin_PI2.
        pose proof (hypot_sin_atan2 x y) as C. rewrite hypot_comm in C. lra.
  - destruct (Rlt_dec x 0) as [N|N]; [|reflexivity].
    assert (D : copysign 180.0 y = degrees (if Rlt_dec y 0 then - PI else PI)).
    { unfold copysign. rewrite Rabs_right by lra. destruct (Rlt_dec y 0).
      - transitivity (-180); [lra|]. unfold degrees; field; lra.
      - transitivity 180; [lra|]. unfold degrees; field; lra. }
    rewrite D. replace (degrees (if Rlt_dec y 0 then - PI else PI) - degrees (atan2 y (- x)))
      with (degrees ((if Rlt_dec y 0 then - PI else PI) + - atan2 y (- x))) by (unfold degrees, Rdiv; ring).
    f_equal. symmetry. apply (atan2_unique _ _ _ (hypot x y)).
    + apply hypot_pos. left. lra.
    + rewrite atan2_pos by lra. pose proof (atan_bound (y / - x)).
      destruct (Rlt_dec y 0).
      * assert (atan (y / - x) < 0).
        { rewrite <- atan_0. apply atan_increasing. apply Rmult_lt_reg_r with (- x); [lra|]. unfold Rdiv. rewrite Rmult_assoc, Rinv_l by lra. lra. }
        lra.
      * assert (0 <= atan (y / - x)).
        { destruct (Req_dec y 0) as [->|]; [unfold Rdiv; rewrite Rmult_0_l, atan_0; lra|].
          left. rewrite <- atan_0. apply atan_increasing. apply Rdiv_lt_0_compat; lra. }
        lra.
    + pose proof (hypot_sin_atan2 y (- x)) as C. rewrite hypot_opp_l in C.
      destruct (Rlt_dec y 0); rewrite sin_plus, sin_neg, cos_neg; [rewrite sin_neg, cos_neg|]; rewrite sin_PI, cos_PI; lra.
    + pose proof (hypot_cos_atan2 y (- x)) as C. rewrite hypot_opp_l in C.
      destruct (Rlt_dec y 0); rewrite cos_plus, sin_neg, cos_neg; [rewrite sin_neg, cos_neg|]; rewrite sin_PI, cos_PI; lra.
Qed.

(** ** Polynomials and Clenshaw summation *)
Fixpoint psum (n : nat) (f : nat -> R) : R := match n with O => 0 | S k => psum k f + f (S k) end.
Lemma polyval_loop_eq p x : forall n i y,
  polyval_loop n p i x y = y * x ^ n + sum_f_R0 (fun j => p (i + j)%nat * x ^ (n - 1 - j)) (n - 1) * (match n with O => 0 | _ => 1 end).
Proof.
  induction n as [|n IH]; intros i y; [cbn; ring|]. cbn [polyval_loop]. rewrite IH.
  destruct n as [|n].
  - cbn. rewrite Nat.add_0_r. ring.
  - rewrite !Rmult_1_r. replace (S (S n) - 1)%nat with (S n) by lia. replace (S n - 1)%nat with n by lia.
    rewrite (decomp_sum (fun j => p (i + j)%nat * x ^ (S n - j)) (S n)) by lia. cbn [Nat.pred].
    rewrite Nat.add_0_r, Nat.sub_0_r.
    rewrite (sum_eq (fun j => p (S i + j)%nat * x ^ (n - j)) (fun j => p (i + S j)%nat * x ^ (S n - S j)) n).
    + rewrite <- !tech_pow_Rmult. ring.
    + intros j Hj. replace (S i + j)%nat with (i + S j)%nat by lia. replace (S n - S j)%nat with (n - j)%nat by lia. reflexivity.
Qed.
(** Horner's rule is the polynomial with coefficients p[s], ..., p[s+N]. *)
Lemma polyval_eq N p s x : polyval N p s x = sum_f_R0 (fun j => p (s + j)%nat * x ^ (N - j)) N.
Proof.
  unfold polyval. rewrite polyval_loop_eq. destruct N as [|N].
  - cbn. rewrite Nat.add_0_r. ring.
  - rewrite (decomp_sum (fun j => p (s + j)%nat * x ^ (S N - j)) (S N)) by lia. cbn [Nat.pred].
    rewrite Nat.add_0_r, Nat.sub_0_r, Rmult_1_r. replace (S N - 1)%nat with N by lia. f_equal.
    apply sum_eq. intros j Hj. replace (S s + j)%nat with (s + S j)%nat by lia. replace (S N - S j)%nat with (N - j)%nat by lia. reflexivity.
Qed.

Section Clenshaw.
Variables (t : R) (c : nat -> R).
Let ar := 2.0 * (cos t - sin t) * (cos t + sin t).
Lemma ar_eq : ar = 2 * cos (2 * t).
Proof. unfold ar. rewrite cos_2a. lra. Qed.
Lemma three_term_sin (a : R) : sin (a + 2 * t) = ar * sin a - sin (a - 2 * t).
Proof. rewrite ar_eq, sin_plus, sin_minus. ring. Qed.
Lemma three_term_cos (a : R) : cos (a + 2 * t) = ar * cos a - cos (a - 2 * t).
Proof. rewrite ar_eq, cos_plus, cos_minus. ring. Qed.
(** Invariant: y0, y1 carry the terms above index 2 * pairs. *)
Lemma clenshaw_sin : forall pairs y0 y1,
  let '(z0, z1) := clenshaw_loop pairs ar c y0 y1 in
  z0 * sin (2 * t) = y0 * sin (2 * INR (2 * pairs + 1) * t) - y1 * sin (2 * INR (2 * pairs) * t)
    + psum (2 * pairs) (fun k => c k * sin (2 * INR k * t)).
Proof.
  induction pairs as [|k IH]; intros y0 y1.
  - cbn [clenshaw_loop]. replace (2 * 0)%nat with 0%nat by lia. cbn. rewrite !Rmult_0_r, Rmult_0_l, sin_0, Rmult_1_r. ring.
  - cbn [clenshaw_loop]. specialize (IH (ar * (ar * y0 - y1 + c (2 * S k)%nat) - y0 + c (2 * S k - 1)%nat) (ar * y0 - y1 + c (2 * S k)%nat)).
    destruct (clenshaw_loop k _ _ _ _) as [z0 z1]. rewrite IH. clear IH z0 z1.
    replace (2 * S k)%nat with (S (S (2 * k))) by lia. replace (S (S (2 * k)) - 1)%nat with (S (2 * k)) by lia.
    cbn [psum]. replace (S (S (2 * k)) + 1)%nat with (S (S (S (2 * k)))) by lia. replace (2 * k + 1)%nat with (S (2 * k)) by lia.
    rewrite !S_INR. set (m := INR (2 * k)).
    assert (E2 : sin (2 * (m + 1 + 1) * t) = ar * sin (2 * (m + 1) * t) - sin (2 * m * t)).
    { replace (2 * (m + 1 + 1) * t) with (2 * (m + 1) * t + 2 * t) by ring. rewrite three_term_sin. f_equal. f_equal. ring. }
    assert (E3 : sin (2 * (m + 1 + 1 + 1) * t) = ar * sin (2 * (m + 1 + 1) * t) - sin (2 * (m + 1) * t)).
    { replace (2 * (m + 1 + 1 + 1) * t) with (2 * (m + 1 + 1) * t + 2 * t) by ring. rewrite three_term_sin. f_equal. f_equal. ring. }
    rewrite E3, E2. ring.
Qed.
Lemma clenshaw_cos : forall pairs y0 y1,
  let '(z0, z1) := clenshaw_loop pairs ar c y0 y1 in
  (z0 - z1) * cos t = y0 * cos ((2 * INR (2 * pairs + 1) - 1) * t) - y1 * cos ((2 * INR (2 * pairs) - 1) * t)
    + psum (2 * pairs) (fun k => c k * cos ((2 * INR k - 1) * t)).
Proof.
  induction pairs as [|k IH]; intros y0 y1.
  - cbn [clenshaw_loop]. replace (2 * 0)%nat with 0%nat by lia. cbn.
    replace ((2 * 1 - 1) * t) with t by ring. replace ((2 * 0 - 1) * t) with (- t) by ring. rewrite cos_neg. ring.
  - cbn [clenshaw_loop]. specialize (IH (ar * (ar * y0 - y1 + c (2 * S k)%nat) - y0 + c (2 * S k - 1)%nat) (ar * y0 - y1 + c (2 * S k)%nat)).
    destruct (clenshaw_loop k _ _ _ _) as [z0 z1]. rewrite IH. clear IH z0 z1.
    replace (2 * S k)%nat with (S (S (2 * k))) by lia. replace (S (S (2 * k)) - 1)%nat with (S (2 * k)) by lia.
    cbn [psum]. replace (S (S (2 * k)) + 1)%nat with (S (S (S (2 * k)))) by lia. replace (2 * k + 1)%nat with (S (2 * k)) by lia.
    rewrite !S_INR. set (m := INR (2 * k)).
    assert (E2 : cos ((2 * (m + 1 + 1) - 1) * t) = ar * cos ((2 * (m + 1) - 1) * t) - cos ((2 * m - 1) * t)).
    { replace ((2 * (m + 1 + 1) - 1) * t) with ((2 * (m + 1) - 1) * t + 2 * t) by ring. rewrite three_term_cos. f_equal. f_equal. ring. }
    assert (E3 : cos ((2 * (m + 1 + 1 + 1) - 1) * t) = ar * cos ((2 * (m + 1 + 1) - 1) * t) - cos ((2 * (m + 1) - 1) * t)).
    { replace ((2 * (m + 1 + 1 + 1) - 1) * t) with ((2 * (m + 1 + 1) - 1) * t + 2 * t) by ring. rewrite three_term_cos. f_equal. f_equal. ring. }
    rewrite E3, E2. ring.
Qed.
Lemma half_odd n : Nat.odd n = true -> n = S (2 * (n / 2)).
Proof. intros H. apply Nat.odd_spec in H. destruct H as [m ->]. replace (2 * m + 1)%nat with (1 + m * 2)%nat by lia. rewrite Nat.div_add by lia. cbn. lia. Qed.
Lemma half_even n : Nat.odd n = false -> n = (2 * (n / 2))%nat.
Proof.
  intros H. rewrite <- Nat.negb_even in H. assert (E : Nat.even n = true) by (destruct (Nat.even n); [reflexivity|discriminate]).
  apply Nat.even_spec in E. destruct E as [m ->]. replace (2 * m)%nat with (m * 2)%nat by lia. rewrite Nat.div_mul by lia. lia.
Qed.
Lemma sin_series n : SinCosSeries true (sin t) (cos t) c n = psum n (fun k => c k * sin (2 * INR k * t)).
Proof.
  unfold SinCosSeries. fold ar. destruct (Nat.odd n) eqn:O.
  - pose proof (clenshaw_sin (n / 2) (c n) 0.0) as Q. destruct (clenshaw_loop _ _ _ _ _) as [z0 z1].
    pose proof (half_odd n O) as E. set (h := (n / 2)%nat) in *. clearbody h. subst n.
    replace (2.0 * sin t * cos t * z0) with (z0 * sin (2 * t)) by (rewrite sin_2a; lra). rewrite Q.
    cbn [psum]. replace (2 * h + 1)%nat with (S (2 * h)) by lia. lra.
  - pose proof (clenshaw_sin (n / 2) 0.0 0.0) as Q. destruct (clenshaw_loop _ _ _ _ _) as [z0 z1].
    pose proof (half_even n O) as E. replace (2.0 * sin t * cos t * z0) with (z0 * sin (2 * t)) by (rewrite sin_2a; lra).
    rewrite Q, <- E. lra.
Qed.
Lemma cos_series n : SinCosSeries false (sin t) (cos t) c n = psum n (fun k => c k * cos ((2 * INR k - 1) * t)).
Proof.
  unfold SinCosSeries. fold ar. destruct (Nat.odd n) eqn:O.
  - pose proof (clenshaw_cos (n / 2) (c n) 0.0) as Q. destruct (clenshaw_loop _ _ _ _ _) as [z0 z1].
    pose proof (half_odd n O) as E. set (h := (n / 2)%nat) in *. clearbody h. subst n.
    rewrite Rmult_comm, Q.
    cbn [psum]. replace (2 * h + 1)%nat with (S (2 * h)) by lia. lra.
  - pose proof (clenshaw_cos (n / 2) 0.0 0.0) as Q. destruct (clenshaw_loop _ _ _ _ _) as [z0 z1].
    pose proof (half_even n O) as E. rewrite Rmult_comm, Q, <- E. lra.
Qed.
End Clenshaw.

Lemma psum_ext n f g : (forall k, (1 <= k <= n)%nat -> f k = g k) -> psum n f = psum n g.
Proof. induction n as [|n IH]; intros H; [reflexivity|]. cbn [psum]. rewrite IH, H by (intros; try apply H; lia). reflexivity. Qed.
Lemma psum_0 n : psum n (fun _ => 0) = 0.
Proof. induction n as [|n IH]; [reflexivity|]. cbn [psum]. rewrite IH. ring. Qed.
(** A series whose coefficients are all zero, for any arguments. *)
Lemma clenshaw_zero ar c : (forall k, c k = 0) -> forall pairs, clenshaw_loop pairs ar c 0 0 = (0, 0).
Proof.
  intros H. induction pairs as [|k IH]; [reflexivity|]. cbn [clenshaw_loop]. rewrite !H.
  replace (ar * 0 - 0 + 0) with 0 by ring. replace (ar * 0 - 0 + 0) with 0 by ring. exact IH.
Qed.
Lemma series_zero sp s k c n : (forall j, c j = 0) -> SinCosSeries sp s k c n = 0.
Proof.
  intros H. unfold SinCosSeries. rewrite H. replace 0.0 with 0 by lra.
  assert (E : (if Nat.odd n then (0, 0) else (0, 0)) = (0, 0)) by (destruct (Nat.odd n); reflexivity). rewrite E.
  rewrite clenshaw_zero by exact H. destruct sp; ring.
Qed.
