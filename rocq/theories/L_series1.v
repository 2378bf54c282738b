(** Karney's distance series against the arc-length integral of the geodesic. *)
From Coq Require Import QArith List Reals Lra Lia Psatz.
Import ListNotations.
From Coquelicot Require Import Coquelicot.
From Verif Require Import PyMath M_karney L_karney L_poly.
Open Scope R_scope.

(** ** general *)
Lemma derive_close F G dF dG M : (forall t, is_derive F t (dF t)) -> (forall t, is_derive G t (dG t)) ->
  (forall t, Rabs (dF t - dG t) <= M) -> forall x y, Rabs ((F y - F x) - (G y - G x)) <= M * Rabs (y - x).
Proof.
  intros HF HG HM x y.
  destruct (MVT_gen (fun t => F t - G t) x y (fun t => dF t - dG t)) as (c & _ & E).
  - intros t _. apply is_derive_Reals. apply derivable_pt_lim_minus; apply is_derive_Reals; auto.
  - intros t _. apply derivable_continuous_pt. exists (dF t - dG t). apply derivable_pt_lim_minus; apply is_derive_Reals; auto.
  - replace (F y - F x - (G y - G x)) with (F y - G y - (F x - G x)) by ring. rewrite E, Rabs_mult.
    apply Rmult_le_compat_r; [apply Rabs_pos|apply HM].
Qed.
Lemma sqrt_close P r K : 0 < r -> 0 <= P -> Rabs (P ^ 2 - r ^ 2) <= K -> Rabs (P - r) <= K / r.
Proof.
  intros Hr HP H. apply Rmult_le_reg_r with r; [exact Hr|]. replace (K / r * r) with K by (field; lra).
  replace (P ^ 2 - r ^ 2) with ((P - r) * (P + r)) in H by ring. rewrite Rabs_mult, (Rabs_right (P + r)) in H by lra.
  pose proof (Rabs_pos (P - r)). nra.
Qed.
(** Chebyshev polynomials up to degree 6 *)
Lemma cheb t : cos (2 * (2 * t)) = 2 * cos (2 * t) ^ 2 - 1 /\ cos (2 * (3 * t)) = 4 * cos (2 * t) ^ 3 - 3 * cos (2 * t) /\
  cos (2 * (4 * t)) = 8 * cos (2 * t) ^ 4 - 8 * cos (2 * t) ^ 2 + 1 /\
  cos (2 * (5 * t)) = 16 * cos (2 * t) ^ 5 - 20 * cos (2 * t) ^ 3 + 5 * cos (2 * t) /\
  cos (2 * (6 * t)) = 32 * cos (2 * t) ^ 6 - 48 * cos (2 * t) ^ 4 + 18 * cos (2 * t) ^ 2 - 1.
Proof.
  set (c := cos (2 * t)).
  assert (R3 : forall a, cos (a + 2 * t) = 2 * c * cos a - cos (a - 2 * t)) by (intros; unfold c; rewrite cos_plus, cos_minus; ring).
  assert (C2 : cos (2 * (2 * t)) = 2 * c ^ 2 - 1).
  { replace (2 * (2 * t)) with (2 * t + 2 * t) by ring. rewrite R3. replace (2 * t - 2 * t) with 0 by ring. rewrite cos_0. unfold c. ring. }
  assert (C3 : cos (2 * (3 * t)) = 4 * c ^ 3 - 3 * c).
  { replace (2 * (3 * t)) with (2 * (2 * t) + 2 * t) by ring. rewrite R3, C2. replace (2 * (2 * t) - 2 * t) with (2 * t) by ring. fold c. ring. }
  assert (C4 : cos (2 * (4 * t)) = 8 * c ^ 4 - 8 * c ^ 2 + 1).
  { replace (2 * (4 * t)) with (2 * (3 * t) + 2 * t) by ring. rewrite R3, C3. replace (2 * (3 * t) - 2 * t) with (2 * (2 * t)) by ring. rewrite C2. ring. }
  assert (C5 : cos (2 * (5 * t)) = 16 * c ^ 5 - 20 * c ^ 3 + 5 * c).
  { replace (2 * (5 * t)) with (2 * (4 * t) + 2 * t) by ring. rewrite R3, C4. replace (2 * (4 * t) - 2 * t) with (2 * (3 * t)) by ring. rewrite C3. ring. }
  repeat split; try assumption.
  replace (2 * (6 * t)) with (2 * (5 * t) + 2 * t) by ring. rewrite R3, C5. replace (2 * (5 * t) - 2 * t) with (2 * (4 * t)) by ring. rewrite C4. ring.
Qed.
Lemma cos_abs1 t : Rabs (cos t) <= 1. Proof. apply Rabs_le. pose proof (COS_bound t). lra. Qed.
Lemma sin_abs1 t : Rabs (sin t) <= 1. Proof. apply Rabs_le. pose proof (SIN_bound t). lra. Qed.

(** ** the coefficients *)
Lemma A1_val e : e <> 1 -> 1 + A1m1f e = (1 + (e ^ 6 + 4 * e ^ 4 + 64 * e ^ 2) / 256) / (1 - e).
Proof. intros H. unfold A1m1f, polyval, polyval_loop, tbl, A1coeff; cbn [nth]. field. lra. Qed.
Lemma C1_val e : forall k, arr (C1f e) k = match k with
  | 1%nat => e * (- e ^ 4 + 6 * e ^ 2 - 16) / 32
  | 2%nat => e ^ 2 * (-9 * e ^ 4 + 64 * e ^ 2 - 128) / 2048
  | 3%nat => e ^ 3 * (9 * e ^ 2 - 16) / 768
  | 4%nat => e ^ 4 * (3 * e ^ 2 - 5) / 512
  | 5%nat => e ^ 5 * -7 / 1280
  | 6%nat => e ^ 6 * -7 / 2048
  | _ => 0 end.
Proof.
  intros k. unfold arr, C1f, series_coeffs, nC1.
  do 7 (destruct k as [|k]; [cbn -[Rmult Rplus Rminus Ropp IZR pow]; unfold polyval, polyval_loop, tbl, C1coeff; cbn [nth]; try reflexivity; field|]).
  destruct k; reflexivity.
Qed.
Lemma C1p_val e : forall k, arr (C1pf e) k = match k with
  | 1%nat => e * (205 * e ^ 4 - 432 * e ^ 2 + 768) / 1536
  | 2%nat => e ^ 2 * (4005 * e ^ 4 - 4736 * e ^ 2 + 3840) / 12288
  | 3%nat => e ^ 3 * (-225 * e ^ 2 + 116) / 384
  | 4%nat => e ^ 4 * (-7173 * e ^ 2 + 2695) / 7680
  | 5%nat => e ^ 5 * 3467 / 7680
  | 6%nat => e ^ 6 * 38081 / 61440
  | _ => 0 end.
Proof.
  intros k. unfold arr, C1pf, series_coeffs, nC1.
  do 7 (destruct k as [|k]; [cbn -[Rmult Rplus Rminus Ropp IZR pow]; unfold polyval, polyval_loop, tbl, C1pcoeff; cbn [nth]; try reflexivity; field|]).
  destruct k; reflexivity.
Qed.

(** ** the distance series *)
(** s/b as computed by the code for the arc [t] from the equator. *)
Definition dser (e t : R) : R := (1 + A1m1f e) * (t + SinCosSeries true (sin t) (cos t) (arr (C1f e)) nC1).
Definition dser' (e c : R) : R :=
  (1 + (e ^ 6 + 4 * e ^ 4 + 64 * e ^ 2) / 256) *
  (1 + (2 * (e * (- e ^ 4 + 6 * e ^ 2 - 16) / 32) * c + 4 * (e ^ 2 * (-9 * e ^ 4 + 64 * e ^ 2 - 128) / 2048) * (2 * c ^ 2 - 1)
      + 6 * (e ^ 3 * (9 * e ^ 2 - 16) / 768) * (4 * c ^ 3 - 3 * c) + 8 * (e ^ 4 * (3 * e ^ 2 - 5) / 512) * (8 * c ^ 4 - 8 * c ^ 2 + 1)
      + 10 * (e ^ 5 * -7 / 1280) * (16 * c ^ 5 - 20 * c ^ 3 + 5 * c) + 12 * (e ^ 6 * -7 / 2048) * (32 * c ^ 6 - 48 * c ^ 4 + 18 * c ^ 2 - 1))).
Lemma psum6 f : psum 6 f = f 1%nat + f 2%nat + f 3%nat + f 4%nat + f 5%nat + f 6%nat.
Proof. cbn [psum]. ring. Qed.
Lemma psum5 f : psum 5 f = f 1%nat + f 2%nat + f 3%nat + f 4%nat + f 5%nat.
Proof. cbn [psum]. ring. Qed.
Lemma INR_k : INR 1 = 1 /\ INR 2 = 2 /\ INR 3 = 3 /\ INR 4 = 4 /\ INR 5 = 5 /\ INR 6 = 6.
Proof. repeat split; rewrite INR_IZR_INZ; reflexivity. Qed.
Lemma sin6 c t : SinCosSeries true (sin t) (cos t) c 6 =
  c 1%nat * sin (2 * t) + c 2%nat * sin (2 * (2 * t)) + c 3%nat * sin (2 * (3 * t)) + c 4%nat * sin (2 * (4 * t)) + c 5%nat * sin (2 * (5 * t)) + c 6%nat * sin (2 * (6 * t)).
Proof.
  rewrite sin_series, psum6. destruct INR_k as (-> & -> & -> & -> & -> & ->). rewrite !Rmult_assoc, Rmult_1_l. reflexivity.
Qed.
Lemma sin5 c t : SinCosSeries true (sin t) (cos t) c 5 =
  c 1%nat * sin (2 * t) + c 2%nat * sin (2 * (2 * t)) + c 3%nat * sin (2 * (3 * t)) + c 4%nat * sin (2 * (4 * t)) + c 5%nat * sin (2 * (5 * t)).
Proof.
  rewrite sin_series, psum5. destruct INR_k as (-> & -> & -> & -> & -> & _). rewrite !Rmult_assoc, Rmult_1_l. reflexivity.
Qed.
Lemma dser_derive e t : e <> 1 -> is_derive (dser e) t (dser' e (cos (2 * t)) / (1 - e)).
Proof.
  intros He. apply is_derive_ext with (f := fun t => (1 + A1m1f e) * (t + (arr (C1f e) 1 * sin (2 * t) + arr (C1f e) 2 * sin (2 * (2 * t)) + arr (C1f e) 3 * sin (2 * (3 * t)) +
     arr (C1f e) 4 * sin (2 * (4 * t)) + arr (C1f e) 5 * sin (2 * (5 * t)) + arr (C1f e) 6 * sin (2 * (6 * t))))).
  { intros u. unfold dser, nC1. rewrite sin6. reflexivity. }
  evar (d : R). replace (dser' e (cos (2 * t)) / (1 - e)) with d; [unfold d; auto_derive; [exact I|reflexivity]|].
  unfold d. destruct (cheb t) as (C2 & C3 & C4 & C5 & C6). rewrite C2, C3, C4, C5, C6, A1_val, !C1_val by exact He. unfold dser'. field. lra.
Qed.
Lemma dser'_close e c : 0 <= e <= 1 / 50 -> Rabs c <= 1 -> Rabs (dser' e c ^ 2 - (1 - 2 * e * c + e ^ 2)) <= 19 * e ^ 7.
Proof. intros He Hc. unfold dser'. poly_le [e; c] (1#50)%Q 7%nat (19#1)%Q; [qside|exact Hc]. Qed.
Lemma dser'_pos e c : 0 <= e <= 1 / 50 -> Rabs c <= 1 -> 0 <= dser' e c.
Proof.
  intros He Hc. assert (H : Rabs (dser' e c - 1) <= 2 * e ^ 1).
  { unfold dser'. poly_le [e; c] (1#50)%Q 1%nat (2#1)%Q; [qside|exact Hc]. }
  apply Rabs_le_between in H. lra.
Qed.
(** the integrand *)
Lemma rad_lo e c : 0 <= e < 1 -> Rabs c <= 1 -> (1 - e) ^ 2 <= 1 - 2 * e * c + e ^ 2.
Proof. intros He Hc. apply Rabs_le_between in Hc. nra. Qed.
Lemma eps_props k2 : 0 <= k2 -> 0 <= eps_of k2 < 1 /\ k2 = 4 * eps_of k2 / (1 - eps_of k2) ^ 2.
Proof.
  intros H. unfold eps_of. replace 2.0 with 2 by lra. replace 1.0 with 1 by lra. set (k := sqrt (1 + k2)). assert (K2 : k * k = 1 + k2) by (unfold k; rewrite sqrt_sqrt; lra).
  assert (K1 : 1 <= k). { unfold k. rewrite <- sqrt_1 at 1. apply sqrt_le_1; lra. }
  assert (E : k2 / (2 * (1 + k) + k2) = (k - 1) / (k + 1)). { replace k2 with (k * k - 1) by lra. field. split; [nra|lra]. }
  rewrite E. assert (D : 1 - (k - 1) / (k + 1) = 2 / (k + 1)) by (field; lra).
  split; [split|].
  - apply Rmult_le_pos; [lra|]. apply Rlt_le, Rinv_0_lt_compat. lra.
  - apply Rmult_lt_reg_r with (k + 1); [lra|]. replace ((k - 1) / (k + 1) * (k + 1)) with (k - 1) by (field; lra). lra.
  - rewrite D. replace k2 with (k * k - 1) at 1 by lra. field. lra.
Qed.
Lemma eps_incr k k' : 0 <= k <= k' -> eps_of k <= eps_of k'.
Proof.
  intros H. assert (Q : forall k2, 0 <= k2 -> eps_of k2 = 1 - 2 / (1 + sqrt (1 + k2))).
  { intros k2 H2. unfold eps_of. replace 2.0 with 2 by lra. replace 1.0 with 1 by lra. set (r := sqrt (1 + k2)). assert (K2 : r * r = 1 + k2) by (unfold r; rewrite sqrt_sqrt; lra).
    assert (K1 : 0 <= r) by apply sqrt_pos. replace k2 with (r * r - 1) by lra. field. split; [lra|nra]. }
  rewrite !Q by lra. assert (S : sqrt (1 + k) <= sqrt (1 + k')) by (apply sqrt_le_1; lra). pose proof (sqrt_pos (1 + k)).
  assert (2 / (1 + sqrt (1 + k')) <= 2 / (1 + sqrt (1 + k))); [|lra]. apply Rmult_le_compat_l; [lra|]. apply Rinv_le_contravar; lra.
Qed.
Lemma integrand_eq e k2 t : 0 <= e < 1 -> k2 = 4 * e / (1 - e) ^ 2 ->
  sqrt (1 + k2 * sin t ^ 2) = sqrt (1 - 2 * e * cos (2 * t) + e ^ 2) / (1 - e).
Proof.
  intros He E. replace (1 + k2 * sin t ^ 2) with ((1 - 2 * e * cos (2 * t) + e ^ 2) / (1 - e) ^ 2).
  - rewrite sqrt_div_alt by nra. f_equal. apply sqrt_pow2. lra.
  - rewrite E, cos_2a_sin. field. lra.
Qed.
(** arc length over b from the equator crossing, per unit of the auxiliary arc *)
Definition dexact (k2 t : R) : R := RInt (fun u => sqrt (1 + k2 * sin u ^ 2)) 0 t.
Lemma dint_cont k2 t : 0 <= k2 -> continuous (fun u => sqrt (1 + k2 * sin u ^ 2)) t.
Proof.
  intros H. apply (ex_derive_continuous (fun u => sqrt (1 + k2 * sin u ^ 2))). auto_derive. pose proof (pow2_ge_0 (sin t)). cbn [pow] in *. nra.
Qed.
Lemma dexact_derive k2 t : 0 <= k2 -> is_derive (dexact k2) t (sqrt (1 + k2 * sin t ^ 2)).
Proof.
  intros H. unfold dexact. apply (is_derive_RInt (fun u => sqrt (1 + k2 * sin u ^ 2)) (fun x => RInt (fun u => sqrt (1 + k2 * sin u ^ 2)) 0 x) 0 t).
  - exists (mkposreal 1 Rlt_0_1). intros y _. apply (RInt_correct (V := R_CompleteNormedModule)). apply (ex_RInt_continuous (V := R_CompleteNormedModule)). intros z _. now apply dint_cont.
  - now apply dint_cont.
Qed.
Theorem distance_series k2 e : 0 <= k2 -> e = eps_of k2 -> e <= 1 / 50 -> forall t1 t2,
  Rabs ((dser e t2 - dser e t1) - (dexact k2 t2 - dexact k2 t1)) <= 20 * e ^ 7 * Rabs (t2 - t1).
Proof.
  intros Hk He H50 t1 t2. destruct (eps_props k2 Hk) as [Hr Ek]. rewrite <- He in *.
  apply (derive_close (dser e) (dexact k2) (fun t => dser' e (cos (2 * t)) / (1 - e)) (fun t => sqrt (1 + k2 * sin t ^ 2))).
  - intros t. apply dser_derive. lra.
  - intros t. now apply dexact_derive.
  - intros t. rewrite (integrand_eq e k2 t Hr Ek). set (c := cos (2 * t)). assert (Hc : Rabs c <= 1) by apply cos_abs1.
    pose proof (rad_lo e c Hr Hc) as RL. set (q := 1 - 2 * e * c + e ^ 2) in *.
    assert (R1 : 1 - e <= sqrt q). { rewrite <- (sqrt_pow2 (1 - e)) by lra. apply sqrt_le_1; nra. }
    assert (SQ : sqrt q ^ 2 = q) by (rewrite <- Rsqr_pow2; apply Rsqr_sqrt; nra).
    assert (B : Rabs (dser' e c - sqrt q) <= 19 * e ^ 7 / sqrt q).
    { apply sqrt_close; [lra|apply dser'_pos; [lra|exact Hc]|]. rewrite SQ. apply dser'_close; [lra|exact Hc]. }
    replace (dser' e c / (1 - e) - sqrt q / (1 - e)) with ((dser' e c - sqrt q) / (1 - e)) by (field; lra).
    unfold Rdiv at 1. rewrite Rabs_mult, (Rabs_right (/ (1 - e))) by (apply Rle_ge, Rlt_le, Rinv_0_lt_compat; lra).
    assert (E7 : 0 <= e ^ 7) by (apply pow_le; lra).
    apply Rmult_le_reg_r with (1 - e); [lra|]. rewrite Rmult_assoc, Rinv_l, Rmult_1_r by lra. eapply Rle_trans; [exact B|].
    apply Rmult_le_reg_r with (sqrt q); [lra|]. replace (19 * e ^ 7 / sqrt q * sqrt q) with (19 * e ^ 7) by (field; lra).
    assert (19 / 20 <= (1 - e) * sqrt q); [|nra]. apply Rle_trans with ((1 - e) * (1 - e)); nra.
Qed.
