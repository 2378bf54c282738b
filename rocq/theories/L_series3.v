(** Karney's longitude series (A3, C3) against the longitude integral of the geodesic. *)
From Coq Require Import QArith List Reals Lra Lia Psatz.
Import ListNotations.
From Coquelicot Require Import Coquelicot.
From Verif Require Import PyMath M_karney L_karney L_karney5 L_poly L_series1.
Open Scope R_scope.

Definition A3v (n e : R) : R :=
  -3 / 128 * e ^ 5 + (-2 * n - 3) / 64 * e ^ 4 + (- n ^ 2 - 3 * n - 1) / 16 * e ^ 3 + (3 * n ^ 2 - n - 2) / 8 * e ^ 2 + (n - 1) / 2 * e + 1.
Definition C3v1 (n e : R) : R := e * (3 / 128 * e ^ 4 + (2 * n + 5) / 128 * e ^ 3 + (- n ^ 2 + 3 * n + 3) / 64 * e ^ 2 + (1 - n ^ 2) / 8 * e + (1 - n) / 4).
Definition C3v2 (n e : R) : R := e ^ 2 * (5 / 256 * e ^ 3 + (n + 3) / 128 * e ^ 2 + (-3 * n ^ 2 - 2 * n + 3) / 64 * e + (n ^ 2 - 3 * n + 2) / 32).
Definition C3v3 (n e : R) : R := e ^ 3 * (7 / 512 * e ^ 2 + (-10 * n + 9) / 384 * e + (5 * n ^ 2 - 9 * n + 5) / 192).
Definition C3v4 (n e : R) : R := e ^ 4 * (7 / 512 * e + (-14 * n + 7) / 512).
Definition C3v5 (n e : R) : R := e ^ 5 * 21 / 2560.
Lemma A3_val g e : oblate g -> A3f g e = A3v (gd_n g) e.
Proof.
  intros (_ & _ & _ & _ & _ & _ & A & _). unfold A3f. rewrite A. unfold compute_A3x, down_range. cbn [nC3 Nat.sub seq rev app map Nat.min table_rows].
  unfold polyval, arr. cbn [polyval_loop nth Nat.add tbl A3coeff]. unfold tbl. cbn [nth A3coeff]. unfold A3v. field.
Qed.
Lemma C3_val g e : oblate g -> forall k, arr (C3f g e) k = match k with
  | 1%nat => C3v1 (gd_n g) e | 2%nat => C3v2 (gd_n g) e | 3%nat => C3v3 (gd_n g) e | 4%nat => C3v4 (gd_n g) e | 5%nat => C3v5 (gd_n g) e | _ => 0 end.
Proof.
  intros (_ & _ & _ & _ & _ & _ & _ & A) k. unfold arr, C3f. rewrite A.
  assert (L : compute_C3x (gd_n g) = let n := gd_n g in [3 / 128; (2 * n + 5) / 128; (- n ^ 2 + 3 * n + 3) / 64; (1 - n ^ 2) / 8; (1 - n) / 4;
     5 / 256; (n + 3) / 128; (-3 * n ^ 2 - 2 * n + 3) / 64; (n ^ 2 - 3 * n + 2) / 32;
     7 / 512; (-10 * n + 9) / 384; (5 * n ^ 2 - 9 * n + 5) / 192; 7 / 512; (-14 * n + 7) / 512; 21 / 2560]).
  { unfold compute_C3x, down_range. cbn [nC3 Nat.sub seq rev app map flat_map Nat.min table_rows]. unfold polyval. cbn [polyval_loop nth Nat.add tbl C3coeff]. unfold tbl. cbn [nth C3coeff].
    repeat (apply f_equal2; [field|]). reflexivity. }
  rewrite L. replace 1.0 with 1 by lra. unfold C3f_loop, nC3. cbn [Nat.sub Nat.add]. unfold polyval, arr. cbn [polyval_loop nth Nat.add].
  do 6 (destruct k as [|k]; [cbn [nth]; try reflexivity; unfold C3v1, C3v2, C3v3, C3v4, C3v5; field|]). destruct k; reflexivity.
Qed.
(** the code's series for (omega - lambda)/(f sin(alpha0)) at the arc [t] *)
Definition lser (g : Geodesic) (e t : R) : R := A3f g e * (t + SinCosSeries true (sin t) (cos t) (arr (C3f g e)) (nC3 - 1)).
Definition lser' (n e c : R) : R := A3v n e * (1 + (2 * C3v1 n e * c + 4 * C3v2 n e * (2 * c ^ 2 - 1) + 6 * C3v3 n e * (4 * c ^ 3 - 3 * c)
  + 8 * C3v4 n e * (8 * c ^ 4 - 8 * c ^ 2 + 1) + 10 * C3v5 n e * (16 * c ^ 5 - 20 * c ^ 3 + 5 * c))).
Lemma lser_derive g e t : oblate g -> is_derive (lser g e) t (lser' (gd_n g) e (cos (2 * t))).
Proof.
  intros O. apply is_derive_ext with (f := fun t => A3v (gd_n g) e * (t + (C3v1 (gd_n g) e * sin (2 * t) + C3v2 (gd_n g) e * sin (2 * (2 * t)) + C3v3 (gd_n g) e * sin (2 * (3 * t)) +
     C3v4 (gd_n g) e * sin (2 * (4 * t)) + C3v5 (gd_n g) e * sin (2 * (5 * t))))).
  { intros u. unfold lser, nC3. change (6 - 1)%nat with 5%nat. rewrite sin5, A3_val, !(C3_val g e O) by exact O. reflexivity. }
  evar (d : R). replace (lser' (gd_n g) e (cos (2 * t))) with d; [unfold d; auto_derive; [exact I|reflexivity]|].
  unfold d. destruct (cheb t) as (C2 & C3 & C4 & C5 & _). rewrite C2, C3, C4, C5. unfold lser'. ring.
Qed.
(** the exact integrand (2-f)/(1+(1-f)sqrt(1+k2 sin^2)) *)
Definition lint (f k2 u : R) : R := (2 - f) / (1 + (1 - f) * sqrt (1 + k2 * sin u ^ 2)).
Definition lexact (f k2 t : R) : R := RInt (lint f k2) 0 t.
Lemma lint_den f k2 t : 0 <= f < 1 -> 0 < 1 + (1 - f) * sqrt (1 + k2 * sin t ^ 2).
Proof. intros Hf. pose proof (sqrt_pos (1 + k2 * sin t ^ 2)). nra. Qed.
Lemma lint_cont f k2 t : 0 <= f < 1 -> 0 <= k2 -> continuous (lint f k2) t.
Proof.
  intros Hf H. apply (ex_derive_continuous (lint f k2)). unfold lint. auto_derive. pose proof (lint_den f k2 t Hf) as L. pose proof (pow2_ge_0 (sin t)). cbn [pow] in *. repeat split; try nra.
Qed.
Lemma lexact_derive f k2 t : 0 <= f < 1 -> 0 <= k2 -> is_derive (lexact f k2) t (lint f k2 t).
Proof.
  intros Hf H. unfold lexact. apply (is_derive_RInt (lint f k2) (fun x => RInt (lint f k2) 0 x) 0 t).
  - exists (mkposreal 1 Rlt_0_1). intros y _. apply (RInt_correct (V := R_CompleteNormedModule)). apply (ex_RInt_continuous (V := R_CompleteNormedModule)). intros z _. now apply lint_cont.
  - now apply lint_cont.
Qed.
Lemma lint_eq n e f k2 t : 0 <= e < 1 -> 0 <= n < 1 -> f = 2 * n / (1 + n) -> k2 = 4 * e / (1 - e) ^ 2 ->
  lint f k2 t = 2 * (1 - e) / ((1 + n) * (1 - e) + (1 - n) * sqrt (1 - 2 * e * cos (2 * t) + e ^ 2)).
Proof.
  intros He Hn -> Ek. unfold lint. rewrite (integrand_eq e k2 t He Ek). pose proof (sqrt_pos (1 - 2 * e * cos (2 * t) + e ^ 2)) as S. set (q := sqrt (1 - 2 * e * cos (2 * t) + e ^ 2)) in *.
  field. repeat split; try lra; nra.
Qed.
Definition lres (n t c r : R) : R :=
  lser' n (n * t) c * ((1 + n) * (1 - n * t) + (1 - n) * (dser' (n * t) c + n ^ 7 * (20 * r))) - 2 * (1 - n * t).
Lemma lres_small n t c r : 0 <= n <= 1 / 50 -> Rabs t <= 1 -> Rabs c <= 1 -> Rabs r <= 1 -> Rabs (lres n t c r) <= 48 * n ^ 6.
Proof.
  intros Hn Ht Hc Hr. unfold lres, lser', A3v, C3v1, C3v2, C3v3, C3v4, C3v5, dser'.
  tm_le [n; t; c; r] (1#50)%Q 7%nat 6%nat (48#1)%Q; try assumption.
Qed.
Theorem longitude_series g k2 : oblate g -> 0 <= k2 -> gd_n g <= 1 / 50 -> eps_of k2 <= gd_n g -> forall t1 t2,
  Rabs ((lser g (eps_of k2) t2 - lser g (eps_of k2) t1) - (lexact (gd_f g) k2 t2 - lexact (gd_f g) k2 t1)) <= 26 * gd_n g ^ 6 * Rabs (t2 - t1).
Proof.
  intros O Hk H50 Hen. destruct (eps_props k2 Hk) as [Hr Ek]. set (e := eps_of k2) in *. pose proof O as (_ & Hf & _ & _ & _ & En & _). set (n := gd_n g) in *. set (f := gd_f g) in *.
  assert (Hn : 0 <= n). { rewrite En. apply Rmult_le_pos; [lra|]. left. apply Rinv_0_lt_compat. lra. }
  assert (Ef : f = 2 * n / (1 + n)). { rewrite En. field. split; [|lra]. replace (2 - f + f) with 2 by ring. lra. }
  apply (derive_close (lser g e) (lexact f k2) (fun t => lser' n e (cos (2 * t))) (lint f k2)).
  - intros t. now apply lser_derive.
  - intros t. now apply lexact_derive.
  - intros t. rewrite (lint_eq n e f k2 t Hr ltac:(lra) Ef Ek). set (c := cos (2 * t)). assert (Hc : Rabs c <= 1) by apply cos_abs1.
    pose proof (rad_lo e c Hr Hc) as RL. set (q := 1 - 2 * e * c + e ^ 2) in *.
    assert (R1 : 1 - e <= sqrt q). { rewrite <- (sqrt_pow2 (1 - e)) by lra. apply sqrt_le_1; nra. }
    assert (SQ : sqrt q ^ 2 = q) by (rewrite <- Rsqr_pow2; apply Rsqr_sqrt; nra).
    assert (B : Rabs (dser' e c - sqrt q) <= 19 * e ^ 7 / sqrt q).
    { apply sqrt_close; [lra|apply dser'_pos; [lra|exact Hc]|]. rewrite SQ. apply dser'_close; [lra|exact Hc]. }
    assert (E7 : 0 <= e ^ 7 <= n ^ 7) by (split; [apply pow_le; lra|apply pow_incr; lra]).
    assert (B' : Rabs (sqrt q - dser' e c) <= 20 * n ^ 7).
    { rewrite Rabs_minus_sym. eapply Rle_trans; [exact B|]. apply Rmult_le_reg_r with (sqrt q); [lra|]. replace (19 * e ^ 7 / sqrt q * sqrt q) with (19 * e ^ 7) by (field; lra). nra. }
    clear B. assert (D : 2 * (1 - e) <= (1 + n) * (1 - e) + (1 - n) * sqrt q) by nra. set (d := (1 + n) * (1 - e) + (1 - n) * sqrt q) in *.
    assert (M : Rabs (lser' n e c * d - 2 * (1 - e)) <= 48 * n ^ 6).
    { destruct (Req_dec n 0) as [Z|Z].
      - assert (e = 0) as E0 by lra. unfold d, q. rewrite E0, Z. unfold lser', A3v, C3v1, C3v2, C3v3, C3v4, C3v5. replace (1 - 2 * 0 * c + 0 ^ 2) with 1 by ring. rewrite sqrt_1.
        match goal with |- Rabs ?x <= _ => replace x with 0 by (field; lra) end. rewrite Rabs_R0. lra.
      - assert (N7 : 0 < n ^ 7) by (apply pow_lt; lra).
        assert (T : e = n * (e / n)) by (field; exact Z). assert (HT : Rabs (e / n) <= 1).
        { rewrite Rabs_right; [|apply Rle_ge, Rmult_le_pos; [lra|left; apply Rinv_0_lt_compat; lra]]. apply Rmult_le_reg_r with n; [lra|]. replace (e / n * n) with e by (field; exact Z). lra. }
        set (r := (sqrt q - dser' e c) / (20 * n ^ 7)). assert (HR : Rabs r <= 1).
        { unfold r, Rdiv. rewrite Rabs_mult, (Rabs_right (/ _)) by (left; apply Rinv_0_lt_compat; lra). apply Rmult_le_reg_r with (20 * n ^ 7); [lra|]. rewrite Rmult_assoc, Rinv_l, Rmult_1_r by lra. lra. }
        assert (Q : sqrt q = dser' e c + n ^ 7 * (20 * r)) by (unfold r; field; exact Z).
        pose proof (lres_small n (e / n) c r ltac:(lra) HT Hc HR) as L. unfold lres in L. rewrite <- T, <- Q in L. exact L. }
    assert (N6 : 0 <= n ^ 6) by (apply pow_le; lra).
    replace (lser' n e c - 2 * (1 - e) / d) with ((lser' n e c * d - 2 * (1 - e)) / d) by (field; lra).
    unfold Rdiv. rewrite Rabs_mult, (Rabs_right (/ d)) by (left; apply Rinv_0_lt_compat; lra).
    apply Rmult_le_reg_r with d; [lra|]. rewrite Rmult_assoc, Rinv_l, Rmult_1_r by lra. nra.
Qed.
