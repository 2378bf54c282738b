(** vdist against the true geodesic. *)
From Coq Require Import QArith List Reals Lra Lia Psatz. Import ListNotations.
From Coquelicot Require Import Coquelicot.
From Verif Require Import PyMath L_PyMath M_vincenty Spec Spec_geodesic L_poly L_karney3 L_series1 L_series3 L_vincenty L_vincenty2 L_vincenty3 L_vincenty4 L_geodesic4 L_geodesic7 L_vin1 L_vin2 L_vin3 L_vin4 L_vin5.
Open Scope R_scope.

Lemma short_len c k S s co m : 0 <= c <= 1 / 1000 -> Rabs k <= 1 -> Rabs S <= 1 -> Rabs s <= 1 -> Rabs co <= 1 -> Rabs m <= 1 ->
  Rabs (vin_A (k / 40 * c) * (3 * S - vin_deltasigma (vin_B (k / 40 * c)) s co m) - 3 * S) <= 1 * c ^ 1.
Proof.
  intros. unfold vin_A, vin_deltasigma, vin_B. tm_le [c; k; S; s; co; m] (1#1000)%Q 2%nat 1%nat (1#1)%Q; try assumption.
Qed.
Section Acc.
Variables (a f phi1 phi2 lon1 e L : R).
Let b := a * (1 - f).
Let U1 := reduced_lat f phi1. Let U2 := reduced_lat f phi2.
Hypothesis Ha : 0 < a.
Hypothesis F : 0 <= f <= 1 / 100.
Hypothesis P1 : 0 < cos phi1.
Hypothesis P2 : 0 < cos phi2.
Hypothesis L0 : 0 <= L <= PI.
Hypothesis S0 : 0 < sg U1 U2 L.
Hypothesis S1 : sg U1 U2 L + 4 * f <= 29 / 10.
Let V1 : - PI/2 < U1 < PI/2 := reduced_range f phi1.
Let V2 : - PI/2 < U2 < PI/2 := reduced_range f phi2.
Lemma len_at l : tube f L l -> Rabs (vdist_length a b (v_state_of U1 U2 l) - b * LEN (ep2 f) U1 U2 l) <= b * (1 / 10 ^ 15).
Proof.
  intros T. assert (Hb : 0 < b) by (unfold b; apply Rmult_lt_0_compat; lra). destruct (tube_sg f U1 U2 L V1 V2 L0 S0 S1 l T) as (SR & SP & LR). pose proof (ep2_range f F) as EP.
  assert (E2 : forall x, x * (a ^ 2 - b ^ 2) / b ^ 2 = ep2 f * x) by (intros x; unfold ep2, b; field; lra).
  destruct (q_le U1 U2 l SP) as [Q0 Q1]. destruct (xx_le U1 U2 V1 V2 l SP LR) as [X1 _]. destruct (c_pos U1 U2 V1 V2) as [C1 C2].
  destruct (alpha_cases f U1 U2 L V1 V2 L0 S0 S1 l T) as [[Q E]|(E1 & E3 & E4)].
  - unfold v_state_of. cbv zeta. rewrite E, vdist_length_equator. fold (sg U1 U2 l). unfold equatorial in Q. unfold LEN. cbv zeta. set (x := xx U1 U2 l) in *. set (S := sg U1 U2 l) in *. set (c := 1 - x ^ 2) in *. set (q := c * cos S - 2 * sin U1 * sin U2) in *.
    assert (T16 : 0 < 1 / 10 ^ 16 < 1 / 10000) by (clear; simpl; lra). assert (CS : c <= 2 * (1 / 10 ^ 16)) by (unfold c; nra).
    assert (M : exists m, c * m = q /\ Rabs m <= 1).
    { destruct (Req_dec c 0) as [Z|Z]; [exists 0; rewrite Z in *; apply Rabs_le_between in Q1; split; [lra|rewrite Rabs_R0; lra]|]. exists (q / c). split; [field; exact Z|]. unfold Rdiv. rewrite Rabs_mult, Rabs_inv, (Rabs_right c) by lra.
      apply Rmult_le_reg_r with c; [lra|]. rewrite Rmult_assoc, Rinv_l; lra. }
    destruct M as (m & Mq & Mb). rewrite (LEN_eq _ c q m S Mq).
    pose proof (short_len c (40 * ep2 f) (S / 3) (sin S) (cos S) m ltac:(lra) ltac:(rewrite Rabs_right; lra) ltac:(rewrite Rabs_right; lra) (abs_sin S) (abs_cos S) Mb) as B.
    replace (40 * ep2 f / 40) with (ep2 f) in B by field. replace (3 * (S / 3)) with S in B by field. rewrite <- Rmult_minus_distr_l, Rabs_mult, (Rabs_right b) by lra. apply Rmult_le_compat_l; [lra|]. rewrite Rabs_minus_sym. eapply Rle_trans; [exact B|]. rewrite pow_1, Rmult_1_l. eapply Rle_trans; [exact CS|]. clear. simpl. lra.
  - pose proof (cos2sm_eq f U1 U2 L l T E3 ltac:(lra)) as M. cbv zeta in M. unfold v_state_of. cbv zeta. unfold vdist_length. set (al := v_alpha (v_sinAlpha U1 U2 l)) in *. set (m := v_cos2sigmam U1 U2 l al) in *. rewrite E3, E2. fold (sg U1 U2 l). unfold LEN. cbv zeta.
    rewrite (LEN_eq _ _ _ m _ M). rewrite Rmult_assoc, Rminus_diag_eq, Rabs_R0 by reflexivity. apply Rmult_le_pos; [lra|]. clear. simpl. lra.
Qed.
(** The course of the great circle from U1 to U2 with longitude difference [lam], and what follows for alpha, sigma1, cos 2 sigma_m. *)
Variables (lam az : R).
Hypothesis He : e = 1 \/ e = -1.
Hypothesis T : tube f L lam.
Hypothesis Haz : az = py_mod (atan2 (cos U2 * sin (e * lam)) (cos U1 * sin U2 - sin U1 * cos U2 * cos (e * lam))) tau.
Let S := sg U1 U2 lam.
Lemma e_cos : cos (e * lam) = cos lam.
Proof. destruct He as [->| ->]; [now rewrite Rmult_1_l|]. replace (-1 * lam) with (- lam) by ring. apply cos_neg. Qed.
Lemma e_sin : sin (e * lam) = e * sin lam.
Proof. destruct He as [->| ->]; [now rewrite !Rmult_1_l|]. replace (-1 * lam) with (- lam) by ring. rewrite sin_neg. ring. Qed.
Lemma e_sq : e * e = 1.
Proof. destruct He as [->| ->]; ring. Qed.
Lemma course_az : 0 < sin S /\ 0 < S <= 29 / 10 /\ sin S * sin az = cos U2 * sin (e * lam) /\ sin S * cos az = cos U1 * sin U2 - sin U1 * cos U2 * cos lam /\ cos U1 * sin az = e * xx U1 U2 lam.
Proof.
  destruct (tube_sg f U1 U2 L V1 V2 L0 S0 S1 lam T) as (SR & SP & LR). fold S in SR, SP. split; [exact SP|]. split; [exact SR|].
  set (E := cos U2 * sin (e * lam)) in *. set (N := cos U1 * sin U2 - sin U1 * cos U2 * cos (e * lam)) in *.
  assert (H : hypot N E = sin S). { apply hypot_uniq; [lra|]. pose proof (sin2_sg U1 U2 lam) as Q. fold S in Q. unfold N, E. rewrite e_cos, e_sin. replace (sin S * sin S) with (sin S ^ 2) by ring. rewrite Q. replace ((cos U2 * (e * sin lam)) ^ 2) with (e * e * (cos U2 * sin lam) ^ 2) by ring. rewrite e_sq. ring. }
  pose proof (hypot_cos_atan2 E N) as C. pose proof (hypot_sin_atan2 E N) as D. rewrite H in C, D. assert (A1 : sin S * sin az = E) by (rewrite Haz, sin_py_mod; exact D).
  split; [exact A1|]. split; [rewrite Haz, cos_py_mod, <- e_cos; exact C|]. apply Rmult_eq_reg_l with (sin S); [|lra].
  replace (sin S * (cos U1 * sin az)) with (cos U1 * (sin S * sin az)) by ring. rewrite A1. replace (sin S * (e * xx U1 U2 lam)) with (e * (xx U1 U2 lam * sin S)) by ring. unfold S. rewrite (xx_mul U1 U2 lam SP). unfold E. rewrite e_sin. ring.
Qed.
Lemma course_move : L_vincenty4.gc_move U1 lon1 az S = unit_normal U2 (lon1 + e * lam).
Proof.
  pose proof (gc_move_target U1 lon1 U2 (lon1 + e * lam)) as M. replace (gc_bearing U1 lon1 U2 (lon1 + e * lam)) with az in M.
  - replace (unit_angle (unit_normal U1 lon1) (unit_normal U2 (lon1 + e * lam))) with S in M; [exact M|].
    rewrite <- v_sigma_angle, !v_sigma_acos. unfold S, sg. rewrite v_sigma_acos. unfold v_cs. rewrite cos_gap. replace (lon1 + e * lam - lon1) with (e * lam) by ring. rewrite e_cos. reflexivity.
  - unfold gc_bearing. rewrite bearing_E, bearing_N. replace (lon1 + e * lam - lon1) with (e * lam) by ring. exact Haz.
Qed.
Lemma course_mid ca0 t1 : sin U1 = ca0 * sin t1 -> cos az * cos U1 = ca0 * cos t1 -> ca0 ^ 2 * cos (2 * t1 + S) = ca0 ^ 2 * cos S - 2 * sin U1 * sin U2.
Proof.
  intros A B. destruct course_az as (SP & _ & _ & C & _). destruct (sg_cs U1 U2 lam) as [K _]. fold S in K.
  assert (Z : sin U2 = ca0 * sin (t1 + S)).
  { rewrite sin_plus, Rmult_plus_distr_l, <- !Rmult_assoc, <- A, <- B. replace (cos az * cos U1 * sin S) with (cos U1 * (sin S * cos az)) by ring. rewrite C, K.
    pose proof (sc1 U1) as Q. assert (Q' : cos U1 ^ 2 = 1 - sin U1 ^ 2) by nra. ring [Q']. }
  rewrite Z. rewrite A. replace (2 * t1 + S) with (t1 + (t1 + S)) by ring. rewrite cos_plus. replace (cos S) with (cos (t1 + S - t1)) by (f_equal; ring). rewrite (cos_minus (t1 + S) t1). ring.
Qed.
Variables (c t : R -> vec3).
Hypothesis G : unit_geodesic a b c t.
Hypothesis G0 : c 0 = surface_point a b phi1 lon1.
Hypothesis G1 : t 0 = heading_vector phi1 lon1 az.
Lemma HH_vlon x S' m : xx U1 U2 lam = x -> sg U1 U2 lam = S' -> (1 - x ^ 2) * m = (1 - x ^ 2) * cos S' - 2 * sin U1 * sin U2 -> let C := vC f (1 - x ^ 2) in
  HH f U1 U2 lam = x * ((1 - C) * (S' + C * sin S' * (m + C * cos S' * (-1 + 2 * m ^ 2)))).
Proof.
  intros Ex Es M C. destruct course_az as (SP & _). pose proof (xx_mul U1 U2 lam SP) as XM. rewrite Ex, Es in XM. unfold HH. rewrite Ex, Es. cbv zeta. rewrite <- M, <- XM. unfold C, vC, kap. field.
Qed.
Theorem course_end : exists d th, c d = surface_point a b phi2 (lon1 + e * (lam - f * (HH f U1 U2 lam + th))) /\
  Rabs (d - b * LEN (ep2 f) U1 U2 lam) <= b * (3 * derr (ep2 f)) /\ Rabs th <= 3 * lerr f.
Proof.
  pose proof (vin_start f phi1 az) as VS. cbv zeta in VS. fold U1 in VS. destruct course_az as (SP & SR & A1 & A2 & A3). rewrite A3 in VS. set (x := xx U1 U2 lam) in *.
  replace (1 - e * x * (e * x)) with (1 - x ^ 2) in VS by (replace (e * x * (e * x)) with (e * e * x ^ 2) by ring; rewrite e_sq; ring).
  set (ca0 := sqrt (1 - x ^ 2)) in *. set (t1 := atan2 ((1 - f) * tan phi1) (cos az)) in *. destruct VS as (R0 & C2 & Z1 & Z2).
  pose proof (course_mid ca0 t1 Z1 Z2) as M. rewrite C2 in M. assert (Hb : 0 < b) by (unfold b; apply Rmult_lt_0_compat; lra).
  pose proof (exact_point a f U1 lon1 az phi1 ca0 t1 S U2 (lon1 + e * lam) phi2 c t Ha ltac:(lra) G G0 G1 (reduced_reduces f phi1 ltac:(lra) P1) Z1 Z2 (reduced_reduces f phi2 ltac:(lra) P2) course_move) as X.
  set (k2 := ca0 ^ 2 * (f * (2 - f) / (1 - f) ^ 2)) in *. assert (K2 : k2 = ep2 f * (1 - x ^ 2)) by (unfold k2, ep2; rewrite C2; ring).
  pose proof (ep2_range f F) as EP. assert (Hk : 0 <= k2 <= ep2 f) by (rewrite K2; split; [apply Rmult_le_pos; lra|nra]).
  set (LX := lexact f k2 (t1 + S) - lexact f k2 t1). set (m := cos (2 * t1 + S)) in *.
  pose proof (vin_longitude f (1 - x ^ 2) F R0 t1 (t1 + S)) as V. cbv zeta in V. replace ((1 - x ^ 2) * (f * (2 - f) / (1 - f) ^ 2)) with k2 in V by (unfold k2; rewrite C2; reflexivity). fold LX in V. rewrite vlon_diff in V. cbv zeta in V. replace (t1 + S - t1) with S in V by ring. fold m in V. rewrite (Rabs_right S) in V by lra.
  pose proof (HH_vlon x S m eq_refl eq_refl M) as HV. cbv zeta in HV. set (Y := (1 - vC f (1 - x ^ 2)) * (S + vC f (1 - x ^ 2) * sin S * (m + vC f (1 - x ^ 2) * cos S * (-1 + 2 * m ^ 2)))) in *.
  destruct (tube_sg f U1 U2 L V1 V2 L0 S0 S1 lam T) as (_ & _ & LR). destruct (xx_le U1 U2 V1 V2 lam SP LR) as [X1 _]. fold x in X1. destruct (c_pos U1 U2 V1 V2) as [CP1 _].
  exists (arc_dist a f ca0 t1 S), (x * (LX - Y)). split; [|split].
  - fold b in X. rewrite X. f_equal. unfold arc_turn. fold k2 LX. rewrite HV. replace (sin az * cos U1) with (e * x) by lra. ring.
  - unfold arc_dist. fold k2. fold b. pose proof (vin_distance k2 ltac:(lra) t1 (t1 + S)) as D. rewrite vser_diff in D. replace (t1 + S - t1) with S in D by ring. rewrite (Rabs_right S) in D by lra. fold m in D.
    unfold LEN. cbv zeta. fold x S. rewrite (LEN_eq _ _ _ m _ M), <- K2. rewrite <- Rmult_minus_distr_l, Rabs_mult, (Rabs_right b) by lra. apply Rmult_le_compat_l; [lra|]. rewrite Rabs_minus_sym. eapply Rle_trans; [exact D|]. rewrite Rmult_comm. pose proof (derr_incr k2 (ep2 f) Hk). pose proof (derr_pos k2 (proj1 Hk)). apply Rmult_le_compat; lra.
  - rewrite Rabs_mult, (Rabs_right x), Rabs_minus_sym by lra. pose proof (lerr_pos f (proj1 F)). pose proof (Rabs_pos (Y - LX)). apply Rle_trans with (1 * (lerr f * S)); [apply Rmult_le_compat; lra|]. nra.
Qed.
End Acc.
(** vdist with the azimuth it returns. *)
Theorem vdist_joined a f phi1 phi2 lon1 e L l1 c t : let b := a * (1 - f) in let U1 := reduced_lat f phi1 in let U2 := reduced_lat f phi2 in let lam := vl f U1 U2 L l1 in
  0 < a -> 0 <= f <= 1 / 100 -> 0 < cos phi1 -> 0 < cos phi2 -> 0 <= L <= PI -> 0 < sg U1 U2 L -> sg U1 U2 L + 4 * f <= 29 / 10 -> e = 1 \/ e = -1 ->
  tube f L l1 -> tube f L lam -> Rabs (lam - l1) <= 1 / 10 ^ 12 -> unit_geodesic a b c t -> c 0 = surface_point a b phi1 lon1 ->
  t 0 = heading_vector phi1 lon1 (py_mod (atan2 (cos U2 * sin (e * lam)) (cos U1 * sin U2 - sin U1 * cos U2 * cos (e * lam))) tau) ->
  vdist3 (surface_point a b phi2 (lon1 + e * L)) (c (vdist_length a b (v_state_of U1 U2 l1))) <= a * (2 / 10 ^ 12 + 3 * (derr (ep2 f) + f * lerr f)).
Proof.
  intros b U1 U2 lam Ha F P1 P2 L0 S0 S1 He T T' Gap G G0 G1.
  assert (Hb : 0 < b <= a) by (unfold b; split; [apply Rmult_lt_0_compat; lra|nra]). assert (V1 : - PI/2 < U1 < PI/2) by apply reduced_range. assert (V2 : - PI/2 < U2 < PI/2) by apply reduced_range.
  destruct (course_end a f phi1 phi2 lon1 e L Ha F P1 P2 L0 S0 S1 lam _ He T' eq_refl c t G G0 G1) as (d & th & E1 & E2 & E3). fold b U1 U2 in E1, E2, E3.
  pose proof (len_at a f phi1 phi2 L Ha F L0 S0 S1 l1 T) as E4. fold b U1 U2 in E4. destruct (vl_eq f U1 U2 L F V1 V2 L0 S0 S1 l1 T) as (th' & E5 & E6 & _). fold lam in E5.
  destruct (tube_sg f U1 U2 L V1 V2 L0 S0 S1 l1 T) as (SR & SP & LR). destruct (tube_sg f U1 U2 L V1 V2 L0 S0 S1 lam T') as (SR' & SP' & LR'). pose proof (ep2_range f F) as EP.
  assert (HL : Rabs (HH f U1 U2 lam - HH f U1 U2 l1) <= 314 / 10 * (1 / 10 ^ 12) /\ Rabs (LEN (ep2 f) U1 U2 lam - LEN (ep2 f) U1 U2 l1) <= 3 / 2 * (1 / 10 ^ 12)).
  { destruct (Rle_dec l1 lam) as [O|O].
    - rewrite Rabs_right in Gap by lra. pose proof (HH_lip f U1 U2 F V1 V2 l1 lam ltac:(lra) O ltac:(lra) ltac:(lra) ltac:(lra)). pose proof (LEN_lip (ep2 f) U1 U2 EP V1 V2 l1 lam ltac:(lra) O ltac:(lra) ltac:(lra) ltac:(lra)). lra.
    - apply Rnot_le_lt in O. rewrite Rabs_left in Gap by lra. rewrite (Rabs_minus_sym (HH _ _ _ _)), (Rabs_minus_sym (LEN _ _ _ _)).
      pose proof (HH_lip f U1 U2 F V1 V2 lam l1 ltac:(lra) ltac:(lra) ltac:(lra) ltac:(lra) ltac:(lra)). pose proof (LEN_lip (ep2 f) U1 U2 EP V1 V2 lam l1 ltac:(lra) ltac:(lra) ltac:(lra) ltac:(lra) ltac:(lra)). lra. }
  destruct HL as [HL1 HL2]. set (D := vdist_length a b (v_state_of U1 U2 l1)) in *. set (H := HH f U1 U2 lam) in *. set (H' := HH f U1 U2 l1) in *. set (N := LEN (ep2 f) U1 U2 lam) in *. set (N' := LEN (ep2 f) U1 U2 l1) in *.
  set (de := derr (ep2 f)) in *. set (le := lerr f) in *.
  eapply Rle_trans; [apply (vdist3_triangle _ (c d))|].
  assert (B1 : vdist3 (c d) (c D) <= a * (16 / 10 * (1 / 10 ^ 12) + 3 * de)).
  { eapply Rle_trans; [apply (pos_lip a b c t G)|]. apply Rle_trans with (b * (16 / 10 * (1 / 10 ^ 12) + 3 * de)).
    - replace (d - D) with ((d - b * N) + (b * (N - N') + - (D - b * N'))) by ring. eapply Rle_trans; [apply Rabs_triang|]. pose proof (Rabs_triang (b * (N - N')) (- (D - b * N'))) as TR. rewrite Rabs_Ropp, Rabs_mult, (Rabs_right b) in TR by lra.
      assert (b * Rabs (N - N') <= b * (3 / 2 * (1 / 10 ^ 12))) by (apply Rmult_le_compat_l; lra). assert (X15 : b * (1 / 10 ^ 15) <= b * (1 / 10 * (1 / 10 ^ 12))) by (apply Rmult_le_compat_l; [lra|clear; simpl; lra]). lra.
    - assert (0 <= de) by (apply derr_pos; lra). assert (0 < 1 / 10 ^ 12) by (clear; simpl; lra). apply Rmult_le_compat_r; lra. }
  assert (B2 : vdist3 (surface_point a b phi2 (lon1 + e * L)) (c d) <= a * (f * (32 * (1 / 10 ^ 12) + 3 * le))).
  { rewrite E1. eapply Rle_trans; [apply surface_close; lra|]. apply Rmult_le_compat_l; [lra|]. rewrite E5.
    replace (lon1 + e * L - (lon1 + e * (L + f * (H' + th') - f * (H + th)))) with (e * (f * ((H - H') + (th + - th')))) by ring.
    rewrite Rabs_mult. replace (Rabs e) with 1 by (destruct He as [->| ->]; unfold Rabs; destruct (Rcase_abs _); lra). rewrite Rmult_1_l, Rabs_mult, (Rabs_right f) by lra. apply Rmult_le_compat_l; [lra|].
    eapply Rle_trans; [apply Rabs_triang|]. pose proof (Rabs_triang th (- th')) as TR. rewrite Rabs_Ropp in TR. assert (1 / 10 ^ 15 <= 1 / 10 * (1 / 10 ^ 12)) by (clear; simpl; lra). lra. }
  eapply Rle_trans; [apply Rplus_le_compat; [exact B2|exact B1]|]. rewrite <- Rmult_plus_distr_l. apply Rmult_le_compat_l; [lra|].
  assert (T12 : 0 < 1 / 10 ^ 12) by (clear; simpl; lra). replace (2 / 10 ^ 12) with (2 * (1 / 10 ^ 12)) by (unfold Rdiv; ring). assert (0 <= le) by (apply lerr_pos; lra). nra.
Qed.
