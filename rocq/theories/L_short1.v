(** Length and longitude correction of a geodesic as functions of its arc on the
    auxiliary sphere and of its starting direction: bounds, differentials, and the
    identity that ties them (the first variation). *)
From Coq Require Import Reals Lra Lia Psatz.
From Coquelicot Require Import Coquelicot.
From Verif Require Import L_PyMath.
From Verif Require L_vincenty2.
Open Scope R_scope.

(** Total differential of a function of two variables. *)
Definition diff2 (F : R -> R -> R) (s0 d0 A B : R) : Prop :=
  forall eps, 0 < eps -> exists del, 0 < del /\ forall s d, Rabs (s - s0) < del -> Rabs (d - d0) < del ->
    Rabs (F s d - F s0 d0 - A * (s - s0) - B * (d - d0)) <= eps * (Rabs (s - s0) + Rabs (d - d0)).

Section Gen.
Variables (z1 : R) (phi phi' : R -> R) (M : R).
Hypothesis C0 : forall z, continuous phi z.
Hypothesis C1 : forall z, continuous phi' z.
Hypothesis B1 : forall z, Rabs (phi' z) <= M.
Hypothesis Q : forall z z', Rabs (phi z' - phi z - phi' z * (z' - z)) <= M * (z' - z) ^ 2.
Definition zt (d t : R) : R := cos t * z1 + sin t * d.
Lemma zt_cont d t : continuous (zt d) t.
Proof. unfold zt. apply (ex_derive_continuous (fun t => cos t * z1 + sin t * d)). auto_derive. exact I. Qed.
Definition In (s d : R) : R := RInt (fun t => phi (zt d t)) 0 s.
Definition Dn (s d : R) : R := RInt (fun t => phi' (zt d t) * sin t) 0 s.
Lemma phi_cont d t : continuous (fun t => phi (zt d t)) t.
Proof. apply (continuous_comp (zt d) phi); [apply zt_cont|apply C0]. Qed.
Lemma phi'_cont d t : continuous (fun t => phi' (zt d t) * sin t) t.
Proof. apply (continuous_mult (fun t => phi' (zt d t)) sin); [apply (continuous_comp (zt d) phi'); [apply zt_cont|apply C1]|apply continuous_sin]. Qed.
Lemma In_ex d a b : ex_RInt (fun t => phi (zt d t)) a b.
Proof. apply (ex_RInt_continuous (V := R_CompleteNormedModule)). intros t _. apply phi_cont. Qed.
Lemma Dn_ex d a b : ex_RInt (fun t => phi' (zt d t) * sin t) a b.
Proof. apply (ex_RInt_continuous (V := R_CompleteNormedModule)). intros t _. apply phi'_cont. Qed.
(** integral of a function bounded by K *)
Lemma RInt_abs_le (f : R -> R) a b K : ex_RInt f a b -> (forall t, Rmin a b <= t <= Rmax a b -> Rabs (f t) <= K) -> Rabs (RInt f a b) <= K * Rabs (b - a).
Proof.
  intros E H. destruct (Rle_dec a b) as [L|L].
  - rewrite (Rabs_right (b - a)) by lra. rewrite Rmult_comm. change (Rabs (RInt f a b)) with (norm (RInt f a b)). apply (norm_RInt_le_const (V := R_NormedModule) f a b (RInt f a b) K L); [|apply (RInt_correct (V := R_CompleteNormedModule)); exact E].
    intros x Hx. apply H. rewrite Rmin_left, Rmax_right; lra.
  - assert (L' : b <= a) by lra. rewrite <- (opp_RInt_swap (V := R_CompleteNormedModule)) by (apply ex_RInt_swap; exact E). change (opp (RInt f b a)) with (- RInt f b a). rewrite Rabs_Ropp.
    assert (N : Rabs (RInt f b a) <= (a - b) * K). { change (Rabs (RInt f b a)) with (norm (RInt f b a)). apply (norm_RInt_le_const (V := R_NormedModule) f b a (RInt f b a) K L'); [|apply (RInt_correct (V := R_CompleteNormedModule)); apply ex_RInt_swap; exact E]. intros x Hx. apply H. rewrite Rmin_right, Rmax_left; lra. }
    replace (Rabs (b - a)) with (a - b) by (rewrite Rabs_left1; lra). lra.
Qed.
Lemma In_derive d s : is_derive (fun s => In s d) s (phi (zt d s)).
Proof. unfold In. apply (is_derive_RInt (V := R_NormedModule) (fun t => phi (zt d t)) (fun s => RInt (fun t => phi (zt d t)) 0 s) 0 s); [|apply phi_cont]. exists posreal_one. intros y _. apply (RInt_correct (V := R_CompleteNormedModule)), In_ex. Qed.
Lemma Dn_derive d s : is_derive (fun s => Dn s d) s (phi' (zt d s) * sin s).
Proof. unfold Dn. apply (is_derive_RInt (V := R_NormedModule) (fun t => phi' (zt d t) * sin t) (fun s => RInt (fun t => phi' (zt d t) * sin t) 0 s) 0 s); [|apply phi'_cont]. exists posreal_one. intros y _. apply (RInt_correct (V := R_CompleteNormedModule)), Dn_ex. Qed.
Lemma M_pos : 0 <= M. Proof. eapply Rle_trans; [apply Rabs_pos|apply (B1 0)]. Qed.
Lemma Dn_lip d s s' : Rabs (Dn s d - Dn s' d) <= M * Rabs (s - s').
Proof.
  assert (E : Dn s d - Dn s' d = RInt (fun t => phi' (zt d t) * sin t) s' s).
  { unfold Dn. rewrite <- (RInt_Chasles (V := R_CompleteNormedModule) _ 0 s' s) by apply Dn_ex. unfold plus. cbn. ring. }
  rewrite E. apply RInt_abs_le; [apply Dn_ex|]. intros t _. rewrite Rabs_mult. pose proof (L_vincenty2.abs_sin t). pose proof (B1 (zt d t)). pose proof (Rabs_pos (sin t)). pose proof (Rabs_pos (phi' (zt d t))). nra.
Qed.
Lemma In_d s d d0 : Rabs (In s d - In s d0 - Dn s d0 * (d - d0)) <= M * (d - d0) ^ 2 * Rabs s.
Proof.
  set (f := fun t => phi (zt d t) - phi (zt d0 t) - phi' (zt d0 t) * sin t * (d - d0)).
  assert (E : In s d - In s d0 - Dn s d0 * (d - d0) = RInt f 0 s).
  { unfold In, Dn, f. symmetry. apply is_RInt_unique.
    apply (is_RInt_minus (V := R_NormedModule) (fun t => phi (zt d t) - phi (zt d0 t)) (fun t => phi' (zt d0 t) * sin t * (d - d0))).
    - apply (is_RInt_minus (V := R_NormedModule) (fun t => phi (zt d t)) (fun t => phi (zt d0 t))); apply (RInt_correct (V := R_CompleteNormedModule)), In_ex.
    - assert (K : is_RInt (fun t => scal (d - d0) (phi' (zt d0 t) * sin t)) 0 s (scal (d - d0) (RInt (fun t => phi' (zt d0 t) * sin t) 0 s))) by (apply (is_RInt_scal (V := R_NormedModule)); apply (RInt_correct (V := R_CompleteNormedModule)), Dn_ex).
      rewrite (Rmult_comm _ (d - d0)). eapply is_RInt_ext; [|exact K]. intros x _. unfold scal. cbn. unfold mult. cbn. ring. }
  rewrite E. replace (Rabs s) with (Rabs (s - 0)) by (f_equal; ring). apply RInt_abs_le.
  - exists (In s d - In s d0 - Dn s d0 * (d - d0)). unfold In, Dn, f.
    apply (is_RInt_minus (V := R_NormedModule) (fun t => phi (zt d t) - phi (zt d0 t)) (fun t => phi' (zt d0 t) * sin t * (d - d0))).
    + apply (is_RInt_minus (V := R_NormedModule) (fun t => phi (zt d t)) (fun t => phi (zt d0 t))); apply (RInt_correct (V := R_CompleteNormedModule)), In_ex.
    + assert (K : is_RInt (fun t => scal (d - d0) (phi' (zt d0 t) * sin t)) 0 s (scal (d - d0) (RInt (fun t => phi' (zt d0 t) * sin t) 0 s))) by (apply (is_RInt_scal (V := R_NormedModule)); apply (RInt_correct (V := R_CompleteNormedModule)), Dn_ex).
      rewrite (Rmult_comm _ (d - d0)). eapply is_RInt_ext; [|exact K]. intros x _. unfold scal. cbn. unfold mult. cbn. ring.
  - intros t _. unfold f. pose proof (Q (zt d0 t) (zt d t)) as H. assert (Z : zt d t - zt d0 t = sin t * (d - d0)) by (unfold zt; ring). rewrite Z in H.
    replace (phi' (zt d0 t) * sin t * (d - d0)) with (phi' (zt d0 t) * (sin t * (d - d0))) by ring. eapply Rle_trans; [exact H|]. apply Rmult_le_compat_l; [apply M_pos|]. rewrite Rpow_mult_distr. pose proof (sc1 t). pose proof (pow2_ge_0 (d - d0)). nra.
Qed.
Theorem In_diff2 s0 d0 : diff2 In s0 d0 (phi (zt d0 s0)) (Dn s0 d0).
Proof.
  intros eps He. pose proof M_pos as MP. pose proof (In_derive d0 s0) as D. apply is_derive_Reals in D. destruct (D (eps / 3) ltac:(lra)) as [d1 Hd1].
  set (K := 1 + M * (Rabs s0 + 1)). assert (KP : 1 <= K) by (unfold K; pose proof (Rabs_pos s0); nra).
  set (K2 := 1 + M). set (r := Rmin d1 (Rmin 1 (Rmin (eps / 3 / K) (eps / 3 / K2)))).
  assert (E3 : 0 < eps / 3 / K) by (apply Rdiv_lt_0_compat; lra). assert (E4 : 0 < eps / 3 / K2) by (apply Rdiv_lt_0_compat; unfold K2; lra). pose proof (cond_pos d1) as D1.
  exists r. split; [unfold r; repeat apply Rmin_glb_lt; lra|]. intros s d Hs Hd.
  assert (R1 : r <= d1) by apply Rmin_l. assert (R0 : r <= Rmin 1 (Rmin (eps / 3 / K) (eps / 3 / K2))) by apply Rmin_r. assert (R2 : r <= 1) by (eapply Rle_trans; [exact R0|apply Rmin_l]).
  assert (R3 : r <= Rmin (eps / 3 / K) (eps / 3 / K2)) by (eapply Rle_trans; [exact R0|apply Rmin_r]). assert (R4 : r <= eps / 3 / K) by (eapply Rle_trans; [exact R3|apply Rmin_l]). assert (R5 : r <= eps / 3 / K2) by (eapply Rle_trans; [exact R3|apply Rmin_r]).
  set (x := s - s0) in *. set (y := d - d0) in *.
  assert (T1 : Rabs (In s d - In s d0 - Dn s d0 * y) <= eps / 3 * Rabs y).
  { eapply Rle_trans; [apply In_d|]. fold y. assert (S : Rabs s <= Rabs s0 + 1) by (replace s with (s0 + x) by (unfold x; ring); eapply Rle_trans; [apply Rabs_triang|lra]).
    rewrite <- (pow2_abs y). assert (Y : M * (Rabs s0 + 1) * Rabs y <= eps / 3). { apply Rle_trans with (K * (eps / 3 / K)); [|right; field; lra]. pose proof (Rabs_pos y). apply Rmult_le_compat; try lra; [pose proof (Rabs_pos s0); nra|unfold K; lra]. }
    pose proof (Rabs_pos y). pose proof (Rabs_pos s). apply Rle_trans with (M * (Rabs s0 + 1) * Rabs y * Rabs y); [|apply Rmult_le_compat_r; lra]. replace (M * Rabs y ^ 2 * Rabs s) with (M * Rabs s * Rabs y * Rabs y) by ring. repeat apply Rmult_le_compat_r; try lra. apply Rmult_le_compat_l; lra. }
  assert (T2 : Rabs ((Dn s d0 - Dn s0 d0) * y) <= eps / 3 * Rabs y).
  { rewrite Rabs_mult. apply Rmult_le_compat_r; [apply Rabs_pos|]. eapply Rle_trans; [apply Dn_lip|]. fold x. apply Rle_trans with (K2 * (eps / 3 / K2)); [|right; field; unfold K2; lra]. pose proof (Rabs_pos x). apply Rmult_le_compat; unfold K2 in *; lra. }
  assert (T3 : Rabs (In s d0 - In s0 d0 - phi (zt d0 s0) * x) <= eps / 3 * Rabs x).
  { destruct (Req_dec x 0) as [Z|NZ]. { replace s with s0 by (unfold x in Z; lra). rewrite Z. replace (In s0 d0 - In s0 d0 - phi (zt d0 s0) * 0) with 0 by ring. rewrite Rabs_R0. lra. }
    specialize (Hd1 x NZ ltac:(lra)). replace (s0 + x) with s in Hd1 by (unfold x; ring).
    replace (In s d0 - In s0 d0 - phi (zt d0 s0) * x) with (((In s d0 - In s0 d0) / x - phi (zt d0 s0)) * x) by (field; lra). rewrite Rabs_mult. apply Rmult_le_compat_r; [apply Rabs_pos|lra]. }
  replace (In s d - In s0 d0 - phi (zt d0 s0) * x - Dn s0 d0 * y) with ((In s d - In s d0 - Dn s d0 * y) + ((Dn s d0 - Dn s0 d0) * y) + (In s d0 - In s0 d0 - phi (zt d0 s0) * x)) by ring.
  eapply Rle_trans; [apply Rabs_triang|]. eapply Rle_trans; [apply Rplus_le_compat_r, Rabs_triang|]. pose proof (Rabs_pos x). pose proof (Rabs_pos y). nra.
Qed.
End Gen.

(** ** The two integrands *)
Section Fun.
Variable e2 : R.
Hypothesis He : 0 <= e2 <= 2 / 100.
Definition ww (z : R) : R := sqrt (1 - e2 * (1 - z ^ 2)).
Definition ww' (z : R) : R := e2 * z / ww z.
Definition gg (z : R) : R := e2 / (1 + ww z).
Definition gg' (z : R) : R := - (e2 * ww' z / (1 + ww z) ^ 2).
Lemma arg_pos z : 98 / 100 <= 1 - e2 * (1 - z ^ 2).
Proof. pose proof (pow2_ge_0 z). nra. Qed.
Lemma ww_sq z : ww z ^ 2 = 1 - e2 * (1 - z ^ 2).
Proof. unfold ww. apply pow2_sqrt. pose proof (arg_pos z). lra. Qed.
Lemma ww_lo z : 98 / 100 <= ww z.
Proof. pose proof (arg_pos z) as A. pose proof (ww_sq z) as S. assert (0 <= ww z) by apply sqrt_pos. apply Rnot_lt_le. intros X. nra. Qed.
Lemma ww_hi z : z ^ 2 <= 1 -> ww z <= 1.
Proof. intros H. pose proof (ww_sq z) as S. pose proof (ww_lo z). apply Rnot_lt_le. intros X. nra. Qed.
Lemma gg_id z : gg z * (1 - z ^ 2) = 1 - ww z.
Proof. unfold gg. pose proof (ww_lo z). pose proof (ww_sq z). apply Rmult_eq_reg_r with (1 + ww z); [|lra]. replace (e2 / (1 + ww z) * (1 - z ^ 2) * (1 + ww z)) with (e2 * (1 - z ^ 2)) by (field; lra). nra. Qed.
Lemma gg_sq z : 2 * gg z - gg z ^ 2 * (1 - z ^ 2) = e2.
Proof. replace (gg z ^ 2 * (1 - z ^ 2)) with (gg z * (gg z * (1 - z ^ 2))) by ring. rewrite gg_id. unfold gg. pose proof (ww_lo z). field. lra. Qed.
Lemma gg_bound z : 0 <= gg z <= 102 / 200 * e2.
Proof.
  unfold gg. pose proof (ww_lo z). assert (I : 0 < / (1 + ww z) <= 102 / 200).
  { split; [apply Rinv_0_lt_compat; lra|]. apply Rle_trans with (/ (198 / 100)); [apply Rinv_le_contravar; lra|lra]. }
  unfold Rdiv. split; [apply Rmult_le_pos; lra|]. rewrite Rmult_comm. apply Rmult_le_compat_r; lra.
Qed.
Lemma ww_derive z : is_derive ww z (ww' z).
Proof.
  unfold ww', ww. pose proof (arg_pos z) as A. auto_derive; [cbn [pow] in *; nra|]. replace (z * (z * 1)) with (z ^ 2) by ring. replace (1 + - (e2 * (1 + - z ^ 2))) with (1 - e2 * (1 - z ^ 2)) by ring. field. pose proof (sqrt_lt_R0 (1 - e2 * (1 - z ^ 2)) ltac:(lra)). lra.
Qed.
Lemma ww'_derive z : is_derive ww' z (e2 * (1 - e2) / ww z ^ 3).
Proof.
  pose proof (ww_lo z) as W. pose proof (ww_sq z) as S. pose proof (ww_derive z) as D. unfold ww'.
  assert (K : is_derive (fun z => e2 * z / ww z) z ((e2 * ww z - e2 * z * ww' z) / ww z ^ 2)).
  { apply (is_derive_div (fun z => e2 * z) ww z e2 (ww' z)); [|exact D|lra]. pose proof (is_derive_scal (fun z => z) z e2 1 (is_derive_id z)) as K. rewrite Rmult_1_r in K. exact K. }
  replace (e2 * (1 - e2) / ww z ^ 3) with ((e2 * ww z - e2 * z * ww' z) / ww z ^ 2); [exact K|]. unfold ww'. apply Rmult_eq_reg_r with (ww z ^ 3); [|apply pow_nonzero; lra].
  replace ((e2 * ww z - e2 * z * (e2 * z / ww z)) / ww z ^ 2 * ww z ^ 3) with (e2 * ww z ^ 2 - e2 * z * (e2 * z)) by (field; lra). replace (e2 * (1 - e2) / ww z ^ 3 * ww z ^ 3) with (e2 * (1 - e2)) by (field; lra). rewrite S. ring.
Qed.
Lemma gg_derive z : is_derive gg z (gg' z).
Proof.
  pose proof (ww_lo z) as W. pose proof (ww_derive z) as D. unfold gg, gg'.
  replace (- (e2 * ww' z / (1 + ww z) ^ 2)) with ((0 * (1 + ww z) - e2 * ww' z) / (1 + ww z) ^ 2) by (field; lra).
  apply (is_derive_div (fun _ => e2) (fun z => 1 + ww z) z 0 (ww' z)); [apply (is_derive_const e2)| |lra].
  replace (ww' z) with (0 + ww' z) by ring. apply (is_derive_plus (fun _ => 1) ww); [apply (is_derive_const 1)|exact D].
Qed.
Definition gg'' (z : R) : R := - e2 * ((e2 * (1 - e2) / ww z ^ 3) * (1 + ww z) ^ 2 - ww' z * (2 * (1 + ww z) * ww' z)) / (1 + ww z) ^ 4.
Lemma gg'_derive z : is_derive gg' z (gg'' z).
Proof.
  pose proof (ww_lo z) as W. pose proof (ww_derive z) as D. pose proof (ww'_derive z) as D'. unfold gg'', gg'.
  assert (K2 : is_derive (fun z => (1 + ww z) ^ 2) z (2 * (1 + ww z) * ww' z)).
  { replace (2 * (1 + ww z) * ww' z) with (INR 2 * ww' z * (1 + ww z) ^ 1) by (cbn; ring). apply (is_derive_pow (fun z => 1 + ww z) 2 z (ww' z)).
    replace (ww' z) with (0 + ww' z) by ring. apply (is_derive_plus (fun _ => 1) ww); [apply (is_derive_const 1)|exact D]. }
  assert (K1 : is_derive (fun z => - e2 * ww' z) z (- e2 * (e2 * (1 - e2) / ww z ^ 3))) by (apply (is_derive_scal ww' z (- e2)); exact D').
  assert (P : (1 + ww z) ^ 2 <> 0) by (apply pow_nonzero; lra).
  pose proof (is_derive_div (fun z => - e2 * ww' z) (fun z => (1 + ww z) ^ 2) z _ _ K1 K2 P) as K.
  eapply is_derive_ext. 2: { replace (- e2 * ((e2 * (1 - e2) / ww z ^ 3) * (1 + ww z) ^ 2 - ww' z * (2 * (1 + ww z) * ww' z)) / (1 + ww z) ^ 4) with ((- e2 * (e2 * (1 - e2) / ww z ^ 3) * (1 + ww z) ^ 2 - - e2 * ww' z * (2 * (1 + ww z) * ww' z)) / ((1 + ww z) ^ 2) ^ 2); [exact K|]. field. split; lra. }
  assert (EQ : forall t, - e2 * ww' t / (1 + ww t) ^ 2 = - (e2 * ww' t / (1 + ww t) ^ 2)) by (intros t; unfold Rdiv; ring). exact EQ.
Qed.
Lemma ww'_bound z : Rabs (ww' z) <= 15 / 100.
Proof.
  unfold ww'. pose proof (ww_lo z) as W. pose proof (ww_sq z) as S. unfold Rdiv. rewrite Rabs_mult, Rabs_inv, (Rabs_right (ww z)) by lra. apply Rmult_le_reg_r with (ww z); [lra|]. rewrite Rmult_assoc, Rinv_l, Rmult_1_r by lra.
  apply Rsqr_incr_0_var; [|lra]. unfold Rsqr. replace (Rabs (e2 * z) * Rabs (e2 * z)) with ((e2 * z) ^ 2) by (rewrite <- pow2_abs; ring). assert (S' : ww z * ww z = 1 - e2 * (1 - z ^ 2)) by (rewrite <- S; ring). pose proof (pow2_ge_0 z). assert (E0 : 0 <= e2 * z ^ 2) by nra. assert (E1 : (e2 * z) ^ 2 <= 2 / 100 * (e2 * z ^ 2)) by (replace ((e2 * z) ^ 2) with (e2 * (e2 * z ^ 2)) by ring; apply Rmult_le_compat_r; lra). replace (15 / 100 * ww z * (15 / 100 * ww z)) with (225 / 10000 * (ww z * ww z)) by field. lra.
Qed.
Lemma ww'_bound1 z : z ^ 2 <= 1 -> Rabs (ww' z) <= 103 / 100 * e2.
Proof.
  intros H. unfold ww'. pose proof (ww_lo z) as W. unfold Rdiv. rewrite Rabs_mult, Rabs_inv, (Rabs_right (ww z)) by lra. apply Rmult_le_reg_r with (ww z); [lra|]. rewrite Rmult_assoc, Rinv_l, Rmult_1_r by lra. rewrite Rabs_mult, (Rabs_right e2) by lra.
  assert (Rabs z <= 1) by (rewrite <- pow2_abs in H; pose proof (Rabs_pos z); nra). pose proof (Rabs_pos z). nra.
Qed.
Lemma gg'_bound z : Rabs (gg' z) <= 1 / 100 /\ (z ^ 2 <= 1 -> Rabs (gg' z) <= 6 / 1000 * e2).
Proof.
  pose proof (ww_lo z) as W. assert (I : 0 < / (1 + ww z) ^ 2 <= 26 / 100). { split; [apply Rinv_0_lt_compat, pow_lt; lra|]. apply Rle_trans with (/ ((198 / 100) ^ 2)); [|simpl; lra]. apply Rinv_le_contravar; [apply pow_lt; lra|apply pow_incr; lra]. }
  assert (E : Rabs (gg' z) = e2 * / (1 + ww z) ^ 2 * Rabs (ww' z)). { unfold gg', Rdiv. rewrite Rabs_Ropp, !Rabs_mult, (Rabs_right e2) by lra. rewrite (Rabs_right (/ (1 + ww z) ^ 2)) by lra. ring. }
  rewrite E. set (i := / (1 + ww z) ^ 2) in *. pose proof (Rabs_pos (ww' z)) as P. assert (ei : 0 <= e2 * i <= 26 / 100 * e2) by nra. split.
  - pose proof (ww'_bound z). nra.
  - intros H. pose proof (ww'_bound1 z H). apply Rle_trans with (26 / 100 * e2 * (103 / 100 * e2)); [apply Rmult_le_compat; lra|nra].
Qed.
Lemma ww''_bound z : Rabs (e2 * (1 - e2) / ww z ^ 3) <= 1.
Proof.
  pose proof (ww_lo z) as W. assert (I : 0 < / ww z ^ 3 <= 2). { split; [apply Rinv_0_lt_compat, pow_lt; lra|]. apply Rle_trans with (/ ((98 / 100) ^ 3)); [|simpl; lra]. apply Rinv_le_contravar; [apply pow_lt; lra|apply pow_incr; lra]. }
  unfold Rdiv. rewrite Rabs_mult, (Rabs_right (/ ww z ^ 3)), Rabs_right by nra. nra.
Qed.
Lemma gg''_bound z : Rabs (gg'' z) <= 1.
Proof.
  pose proof (ww_lo z) as W. pose proof (ww''_bound z) as B2. pose proof (ww'_bound z) as B1. unfold gg''. set (u := e2 * (1 - e2) / ww z ^ 3) in *. set (v := ww' z) in *. set (o := 1 + ww z) in *. assert (O : 198 / 100 <= o) by (unfold o; lra).
  replace (- e2 * (u * o ^ 2 - v * (2 * o * v)) / o ^ 4) with (- e2 * (u * / o ^ 2) + 2 * e2 * (v * v) * / o ^ 3) by (field; lra).
  assert (I2 : 0 < / o ^ 2 <= 1). { split; [apply Rinv_0_lt_compat, pow_lt; lra|]. apply Rle_trans with (/ 1); [|lra]. apply Rinv_le_contravar; [lra|]. nra. }
  assert (I3 : 0 < / o ^ 3 <= 1). { split; [apply Rinv_0_lt_compat, pow_lt; lra|]. apply Rle_trans with (/ 1); [|lra]. apply Rinv_le_contravar; [lra|]. assert (1 <= o ^ 2) by nra. simpl in *. nra. }
  eapply Rle_trans; [apply Rabs_triang|]. rewrite !Rabs_mult, Rabs_Ropp, (Rabs_right e2), (Rabs_right 2), (Rabs_right (/ o ^ 2)), (Rabs_right (/ o ^ 3)) by lra.
  pose proof (Rabs_pos u). pose proof (Rabs_pos v). assert (Rabs u * / o ^ 2 <= 1) by nra. assert (0 <= Rabs u * / o ^ 2) by (apply Rmult_le_pos; lra). assert (VV : 0 <= Rabs v * Rabs v <= 1) by nra. assert (0 <= 2 * e2 * (Rabs v * Rabs v) <= 4 / 100) by nra. nra.
Qed.
(** second-order Taylor bound from a bounded second derivative *)
Lemma quad_bound (F F' F'' : R -> R) : (forall z, is_derive F z (F' z)) -> (forall z, is_derive F' z (F'' z)) -> (forall z, Rabs (F'' z) <= 1) -> forall z z', Rabs (F z' - F z - F' z * (z' - z)) <= 1 * (z' - z) ^ 2.
Proof.
  intros H1 H2 B z z'. destruct (MVT_gen F z z' F') as (c & Hc & E); [intros; apply H1| |]. { intros x _. apply continuity_pt_filterlim. apply (ex_derive_continuous F). eexists; apply H1. }
  destruct (MVT_gen F' z c F'') as (k & Hk & E2); [intros; apply H2| |]. { intros x _. apply continuity_pt_filterlim. apply (ex_derive_continuous F'). eexists; apply H2. }
  replace (F z' - F z - F' z * (z' - z)) with ((F' c - F' z) * (z' - z)) by (rewrite E; ring). rewrite E2, !Rabs_mult. rewrite Rmult_1_l, <- (pow2_abs (z' - z)). pose proof (B k). pose proof (Rabs_pos (z' - z)). pose proof (Rabs_pos (F'' k)).
  assert (Rabs (c - z) <= Rabs (z' - z)). { unfold Rmin, Rmax in Hc. destruct (Rle_dec z z'); unfold Rabs; repeat destruct (Rcase_abs _); lra. }
  pose proof (Rabs_pos (c - z)). simpl. rewrite Rmult_1_r. apply Rmult_le_compat_r; [lra|]. nra.
Qed.
Variable z1 : R.
Definition Sf := In z1 ww.
Definition Sd := Dn z1 ww'.
Definition Jf := In z1 gg.
Definition Jd := Dn z1 gg'.
Lemma ww_cont z : continuous ww z. Proof. apply (ex_derive_continuous ww). eexists; apply ww_derive. Qed.
Lemma ww'_cont z : continuous ww' z. Proof. apply (ex_derive_continuous ww'). eexists; apply ww'_derive. Qed.
Lemma gg_cont z : continuous gg z. Proof. apply (ex_derive_continuous gg). eexists; apply gg_derive. Qed.
Lemma gg'_cont z : continuous gg' z. Proof. apply (ex_derive_continuous gg'). eexists; apply gg'_derive. Qed.
Theorem Sf_diff s d : diff2 Sf s d (ww (zt z1 d s)) (Sd s d).
Proof. apply (In_diff2 z1 ww ww' 1 ww_cont ww'_cont); [intros z; pose proof (ww'_bound z); lra|]. apply (quad_bound ww ww' _ ww_derive ww'_derive ww''_bound). Qed.
Theorem Jf_diff s d : diff2 Jf s d (gg (zt z1 d s)) (Jd s d).
Proof. apply (In_diff2 z1 gg gg' 1 gg_cont gg'_cont); [intros z; pose proof (gg'_bound z); lra|]. apply (quad_bound gg gg' _ gg_derive gg'_derive gg''_bound). Qed.
(** The first variation. *)
Theorem variation s d : Sd s d = - gg (zt z1 d s) * (- sin s * z1 + cos s * d) * sin s + d * Jf s d - (1 - z1 ^ 2 - d ^ 2) * Jd s d.
Proof.
  set (H := fun s => Sd s d + gg (zt z1 d s) * (- sin s * z1 + cos s * d) * sin s - d * Jf s d + (1 - z1 ^ 2 - d ^ 2) * Jd s d).
  assert (D : forall s, is_derive H s 0).
  { intros x. pose proof (Dn_derive z1 ww' ww'_cont d x) as D1. fold Sd in D1. pose proof (Dn_derive z1 gg' gg'_cont d x) as D2. fold Jd in D2. pose proof (In_derive z1 gg gg_cont d x) as D3. fold Jf in D3.
    assert (Dz : is_derive (fun s => zt z1 d s) x (- sin x * z1 + cos x * d)) by (unfold zt; auto_derive; [exact I|ring]).
    pose proof (is_derive_comp gg (fun s => zt z1 d s) x _ _ (gg_derive (zt z1 d x)) Dz) as D4. unfold scal in D4. cbn in D4. unfold mult in D4. cbn in D4.
    set (z := zt z1 d x) in *. set (z' := - sin x * z1 + cos x * d) in *.
    assert (D5 : is_derive (fun s => (- sin s * z1 + cos s * d) * sin s) x (- z * sin x + z' * cos x)) by (unfold z, z', zt; auto_derive; [exact I|ring]).
    pose proof (is_derive_mult (fun s => gg (zt z1 d s)) (fun s => (- sin s * z1 + cos s * d) * sin s) x _ _ D4 D5 Rmult_comm) as D6. unfold plus, mult in D6. cbn in D6. fold z' in D6.
    assert (EQ : forall t, Sd t d + gg (zt z1 d t) * ((- sin t * z1 + cos t * d) * sin t) - d * Jf t d + (1 - z1 ^ 2 - d ^ 2) * Jd t d = H t) by (intros t; unfold H; ring).
    apply (is_derive_ext _ _ _ _ EQ).
    assert (V : 0 = (ww' z * sin x + (z' * gg' z * (z' * sin x) + gg z * (- z * sin x + z' * cos x))) - d * gg z + (1 - z1 ^ 2 - d ^ 2) * (gg' z * sin x)).
    { pose proof (sc1 x) as SC. assert (P : z' ^ 2 + z ^ 2 = z1 ^ 2 + d ^ 2) by (unfold z, z', zt; nra || (assert (sin x ^ 2 = 1 - cos x ^ 2) by lra; ring [H0])).
      assert (T : z' * cos x - z * sin x - d = - 2 * sin x * z). { unfold z, z', zt. assert (S2 : cos x * cos x = 1 - sin x * sin x) by lra. ring_simplify. replace (cos x ^ 2) with (1 - sin x * sin x) by lra. ring. }
      assert (U : ww' z + gg' z * (1 - z ^ 2) - 2 * z * gg z = 0).
      { pose proof (ww_lo z) as W. unfold gg'. pose proof (gg_id z) as G. assert (G2 : gg z = e2 / (1 + ww z)) by reflexivity. 
        replace (e2 * ww' z / (1 + ww z) ^ 2 ) with (gg z * ww' z / (1 + ww z)) by (rewrite G2; field; lra).
        replace (- (gg z * ww' z / (1 + ww z)) * (1 - z ^ 2)) with (- (gg z * (1 - z ^ 2)) * ww' z / (1 + ww z)) by (field; lra). rewrite G.
        apply Rmult_eq_reg_r with (1 + ww z); [|lra]. rewrite Rmult_0_l. replace ((ww' z + - (1 - ww z) * ww' z / (1 + ww z) - 2 * z * gg z) * (1 + ww z)) with (2 * (ww' z * ww z) - 2 * z * (gg z * (1 + ww z))) by (field; lra).
        replace (gg z * (1 + ww z)) with e2 by (rewrite G2; field; lra). replace (ww' z * ww z) with (e2 * z) by (unfold ww'; field; lra). ring. }
      transitivity (sin x * (ww' z + gg' z * (1 - z ^ 2) - 2 * z * gg z)); [rewrite U; ring|].
      replace (1 - z1 ^ 2 - d ^ 2) with (1 - z' ^ 2 - z ^ 2) by lra. replace (ww' z * sin x + (z' * gg' z * (z' * sin x) + gg z * (- z * sin x + z' * cos x)) - d * gg z + (1 - z' ^ 2 - z ^ 2) * (gg' z * sin x)) with (sin x * (ww' z + gg' z * (1 - z ^ 2)) + gg z * (z' * cos x - z * sin x - d)) by ring. rewrite T. ring. }
    rewrite V. apply (is_derive_plus (fun s => Sd s d + gg (zt z1 d s) * ((- sin s * z1 + cos s * d) * sin s) - d * Jf s d)); [|apply (is_derive_scal (fun s => Jd s d)); exact D2].
    apply (is_derive_minus (fun s => Sd s d + gg (zt z1 d s) * ((- sin s * z1 + cos s * d) * sin s))); [|apply (is_derive_scal (fun s => Jf s d)); exact D3].
    apply (is_derive_plus (fun s => Sd s d)); [exact D1|exact D6]. }
  assert (E : H s = H 0).
  { destruct (MVT_gen H 0 s (fun _ => 0)) as (c & _ & E); [intros; apply D| |]. { intros x _. apply continuity_pt_filterlim. apply (ex_derive_continuous H). eexists; apply D. } lra. }
  assert (Z : H 0 = 0). { unfold H, Sd, Jf, Jd, Dn, In. rewrite !RInt_point. unfold zero. cbn. rewrite sin_0. ring. }
  rewrite Z in E. unfold H in E. lra.
Qed.
(** ** Bounds *)
Section Bd.
Variables s d : R.
Hypothesis Hs : 0 <= s.
Hypothesis Hd : z1 ^ 2 + d ^ 2 <= 1.
Lemma zt_le t : zt z1 d t ^ 2 <= 1.
Proof. unfold zt. pose proof (sc1 t). pose proof (pow2_ge_0 (sin t * z1 - cos t * d)). nra. Qed.
Lemma Sf_lo : 98 / 100 * s <= Sf s d.
Proof.
  unfold Sf, In. apply Rle_trans with (RInt (fun _ => 98 / 100) 0 s). { rewrite RInt_const. unfold scal. cbn. unfold mult. cbn. lra. }
  apply RInt_le; [exact Hs|apply ex_RInt_const|apply In_ex, ww_cont|]. intros x _. apply ww_lo.
Qed.
Lemma Sf_ge K : (forall z, K <= ww z) -> K * s <= Sf s d.
Proof.
  intros HK. unfold Sf, In. apply Rle_trans with (RInt (fun _ => K) 0 s). { rewrite RInt_const. unfold scal. cbn. unfold mult. cbn. lra. }
  apply RInt_le; [exact Hs|apply ex_RInt_const|apply In_ex, ww_cont|]. intros x _. apply HK.
Qed.
Lemma Sf_hi : Sf s d <= s.
Proof.
  unfold Sf, In. apply Rle_trans with (RInt (fun _ => 1) 0 s). 2: { rewrite RInt_const. unfold scal. cbn. unfold mult. cbn. lra. }
  apply RInt_le; [exact Hs|apply In_ex, ww_cont|apply ex_RInt_const|]. intros x _. apply ww_hi, zt_le.
Qed.
Lemma Jf_le : Rabs (Jf s d) <= 102 / 200 * e2 * s.
Proof. unfold Jf, In. pose proof (RInt_abs_le (fun t => gg (zt z1 d t)) 0 s (102 / 200 * e2) (In_ex z1 gg gg_cont d 0 s)) as H. rewrite Rminus_0_r, (Rabs_right s) in H by lra. apply H. intros t _. pose proof (gg_bound (zt z1 d t)). rewrite Rabs_right; lra. Qed.
Lemma Jd_le : Rabs (Jd s d) <= 6 / 1000 * e2 * s.
Proof.
  unfold Jd, Dn. pose proof (RInt_abs_le (fun t => gg' (zt z1 d t) * sin t) 0 s (6 / 1000 * e2) (Dn_ex z1 gg' gg'_cont d 0 s)) as H. rewrite Rminus_0_r, (Rabs_right s) in H by lra. apply H. intros t _.
  rewrite Rabs_mult. pose proof (L_vincenty2.abs_sin t). destruct (gg'_bound (zt z1 d t)) as [_ B]. specialize (B (zt_le t)). pose proof (Rabs_pos (sin t)). pose proof (Rabs_pos (gg' (zt z1 d t))). nra.
Qed.
End Bd.
End Fun.
