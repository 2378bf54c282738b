(** Geodesics along the equator. *)
From Coq Require Import Reals Lra Lia Psatz.
From Coquelicot Require Import Coquelicot.
From Verif Require Import PyMath M_karney L_PyMath Spec Spec_geodesic L_karney3 L_series1 L_series3 L_geodesic6 L_geodesic7 L_geodesic8.
Open Scope R_scope.

Lemma dexact_0 t : dexact 0 t = t.
Proof.
  unfold dexact. rewrite (RInt_ext (V := R_CompleteNormedModule) _ (fun _ => 1)). { rewrite RInt_const. unfold scal. simpl. unfold mult. simpl. ring. }
  intros x _. rewrite Rmult_0_l, Rplus_0_r. apply sqrt_1.
Qed.
Lemma lexact_0 f t : 0 <= f < 1 -> lexact f 0 t = t.
Proof.
  intros F. unfold lexact. rewrite (RInt_ext (V := R_CompleteNormedModule) _ (fun _ => 1)). { rewrite RInt_const. unfold scal. simpl. unfold mult. simpl. ring. }
  intros x _. unfold lint. rewrite Rmult_0_l, Rplus_0_r, sqrt_1. assert (X : (2 - f) / (1 + (1 - f) * 1) = 1) by (field; lra). exact X.
Qed.
Lemma equator_conn a f lam : 0 < a -> 0 <= f < 1 -> conn a (a * (1 - f)) 0 (PI / 2) 0 (PI / 2) (a * lam) lam.
Proof.
  intros Ha F. assert (R0 : reduces f 0 0) by (exists 1; rewrite sin_0, cos_0; repeat split; lra).
  set (sg := lam / (1 - f)).
  assert (M : forall l, L_vincenty4.gc_move 0 l (PI / 2) sg = unit_normal 0 (l + sg)) by (apply move_at; rewrite ?sin_0, ?cos_0, ?sin_PI2, ?cos_PI2; ring).
  assert (T : forall l, gc_tangent 0 l (PI / 2) sg = heading_vector 0 (l + sg) (PI / 2)) by (apply tangent_at; rewrite ?sin_0, ?cos_0, ?sin_PI2, ?cos_PI2; try exact M; try lra; ring).
  pose proof (exact_conn a f 0 (PI / 2) 0 0 0 sg 0 sg (PI / 2) 0 Ha F R0 ltac:(rewrite sin_0; ring) ltac:(rewrite cos_PI2; ring) R0 M T) as C.
  unfold arc_dist, arc_turn in C. replace (0 ^ 2 * (f * (2 - f) / (1 - f) ^ 2)) with 0 in C by (unfold Rdiv; ring). rewrite !dexact_0, !lexact_0, sin_PI2, cos_0, Rplus_0_l, Rminus_0_r in C by exact F.
  replace (a * (1 - f) * sg) with (a * lam) in C by (unfold sg; field; lra). replace (sg + - (f * (1 * 1) * sg)) with lam in C by (unfold sg; field; lra). exact C.
Qed.

(** A case in which the search stops at once: a nearly spherical ellipsoid and a target
    on the equator a quarter turn away. *)
From Verif Require Import L_karney L_karney2 L_karney5 L_karney6 L_karney7 L_geodesic5 L_geodesic9 L_geodesic10.
Lemma lint_range f k2 t : 0 <= f < 1 -> 0 <= k2 -> Rabs (lint f k2 t - 0) <= 1.
Proof.
  intros F K. rewrite Rminus_0_r. unfold lint. assert (1 <= sqrt (1 + k2 * sin t ^ 2)). { rewrite <- sqrt_1 at 1. apply sqrt_le_1; [lra| |]; pose proof (pow2_ge_0 (sin t)); nra. }
  set (q := sqrt _) in *. assert (D : 2 - f <= 1 + (1 - f) * q) by nra.
  rewrite Rabs_right. { apply Rmult_le_reg_r with (1 + (1 - f) * q); [lra|]. unfold Rdiv. rewrite Rmult_assoc, Rinv_l; lra. }
  apply Rle_ge. apply Rmult_le_pos; [lra|]. left. apply Rinv_0_lt_compat. lra.
Qed.
Lemma quarter_residual g U dn1 dn2 dp : oblate g -> gd_f g <= 1 / 100 -> 0 < cos U -> sin U < 0 ->
  Rabs (l_lam12 (Lambda12 g (sin U) (cos U) dn1 0 1 dn2 1 0 1 0 dp)) <= 4 * gd_f g.
Proof.
  intros O Hf C S. pose proof O as (_ & F & F1 & _ & Ep & En & _). pose proof (oblate_f1 g O) as Ff. pose proof (sc1 U) as SC. pose proof PI_RGT_0 as P0. pose proof PI_4 as P4.
  assert (CU : cos U < 1) by nra.
  unfold Lambda12. cbv zeta. destruct (Req_EM_T (sin U) 0) as [X|_]; [lra|]. destruct (Req_EM_T 1 (cos U)) as [X|_]; [lra|].
  assert (H0 : hypot 0 (1 * sin U) = - sin U) by (apply hypot_uniq; nra). assert (H1 : hypot (sin U) (0 * cos U) = - sin U) by (apply hypot_uniq; nra).
  assert (H2 : sqrt ((0 * cos U) ^ 2 + (1 - cos U) * (cos U + 1)) = - sin U). { replace ((0 * cos U) ^ 2 + (1 - cos U) * (cos U + 1)) with ((- sin U) ^ 2) by nra. apply sqrt_pow2. lra. }
  rewrite H0, H2. unfold norm2. rewrite H1. replace (- sin U / 1 * 1) with (- sin U) by field. assert (H3 : hypot 0 (- sin U) = - sin U) by (apply hypot_uniq; nra). rewrite H3. cbn [l_lam12].
  replace (sin U / - sin U) with (-1) by (field; lra). replace (0 * cos U / - sin U) with 0 by (field; lra). replace (0 / - sin U) with 0 by (field; lra). replace (- sin U / - sin U) with 1 by (field; lra).
  replace 0.0 with 0 by lra. replace (0 * 0 - -1 * 1) with 1 by ring. replace (0 * 1 + -1 * 0) with 0 by ring. rewrite (Rmax_right 0 1) by lra.
  assert (A1 : atan2 1 0 = PI / 2) by (apply (atan2_unique _ _ _ 1); rewrite ?sin_PI2, ?cos_PI2; lra). rewrite A1.
  rewrite !Rmult_1_l. rewrite Rmax_right by nra.
  match goal with |- context [atan2 ?y ?x + _] => assert (A2 : atan2 y x = 0) by (apply (atan2_unique _ _ _ (sin U ^ 2 * cos U)); rewrite ?sin_0, ?cos_0; [apply Rmult_lt_0_compat; nra|lra|ring|ring]) end. rewrite A2. clear A2.
  set (k2 := (- sin U) ^ 2 * gd_ep2 g).
  assert (Ep0 : 0 <= gd_ep2 g). { rewrite Ep. apply Rmult_le_pos; [nra|]. left. apply Rinv_0_lt_compat. nra. }
  assert (Hk : 0 <= k2 <= gd_ep2 g) by (unfold k2; assert ((- sin U) ^ 2 <= 1) by nra; pose proof (pow2_ge_0 (- sin U)); nra).
  assert (He : eps_of k2 <= gd_n g) by (rewrite <- (eps_n g O); apply eps_incr; exact Hk).
  assert (Hn : 0 <= gd_n g <= 1 / 150).
  { rewrite En. set (f := gd_f g) in *. split; [apply Rmult_le_pos; [lra|left; apply Rinv_0_lt_compat; lra]|]. apply Rmult_le_reg_r with (2 - f); [lra|]. replace (f / (2 - f) * (2 - f)) with f by (field; lra). lra. }
  pose proof (longitude_series g k2 O ltac:(lra) ltac:(lra) He (- (PI / 2)) 0) as LS.
  pose proof (derive_close (lexact (gd_f g) k2) (fun _ => 0) (lint (gd_f g) k2) (fun _ => 0) 1 ltac:(intros; apply lexact_derive; lra) ltac:(intros; apply is_derive_Reals, derivable_pt_lim_const) ltac:(intros; apply lint_range; lra) (- (PI / 2)) 0) as LX.
  replace (0 - - (PI / 2)) with (PI / 2) in LS, LX by ring. rewrite (Rabs_right (PI / 2)) in LS, LX by lra.
  assert (X : lser g (eps_of k2) 0 - lser g (eps_of k2) (- (PI / 2)) = A3f g (eps_of k2) * (PI / 2 + (SinCosSeries true 0 1 (arr (C3f g (eps_of k2))) (nC3 - 1) - SinCosSeries true (-1) 0 (arr (C3f g (eps_of k2))) (nC3 - 1)))).
  { unfold lser. rewrite sin_neg, cos_neg, sin_PI2, cos_PI2, sin_0, cos_0. replace (- (1)) with (-1) by lra. ring. }
  rewrite X in LS. clear X. set (dl := A3f g (eps_of k2) * _) in *.
  replace (0 + - gd_f g * A3f g (eps_of k2) * cos U * (PI / 2 + (SinCosSeries true 0 1 (arr (C3f g (eps_of k2))) (nC3 - 1) - SinCosSeries true (-1) 0 (arr (C3f g (eps_of k2))) (nC3 - 1)))) with (- (gd_f g * (cos U * dl))) by (unfold dl; ring).
  rewrite Rabs_Ropp, Rabs_mult, Rabs_mult, (Rabs_right (gd_f g)), (Rabs_right (cos U)) by lra. rewrite (Rmult_comm 4). apply Rmult_le_compat_l; [lra|].
  assert (N6 : gd_n g ^ 6 <= (1 / 150) ^ 6) by (apply pow_incr; lra). assert (0 <= gd_n g ^ 6) by (apply pow_le; lra).
  assert (DL : Rabs dl <= 4).
  { replace dl with ((dl - (lexact (gd_f g) k2 0 - lexact (gd_f g) k2 (- (PI / 2)))) + (lexact (gd_f g) k2 0 - lexact (gd_f g) k2 (- (PI / 2)) - (0 - 0))) by ring. eapply Rle_trans; [apply Rabs_triang|].
    assert (26 * gd_n g ^ 6 * (PI / 2) <= 1); [|lra]. apply Rle_trans with (26 * (1 / 150) ^ 6 * 2); [|lra]. apply Rmult_le_compat; lra. }
  pose proof (Rabs_pos dl). nra.
Qed.
Lemma newton_first k eval s last : n_tripb s = false -> Nat.ltb (k_maxit2 - S k) k_maxit1 = true -> Rabs (l_lam12 (eval (n_salp1 s) (n_calp1 s) true)) < 8 * k_tol0 ->
  newton_loop (S k) eval s last = (n_salp1 s, n_calp1 s, eval (n_salp1 s) (n_calp1 s) true).
Proof. intros T B V. cbn [newton_loop]. rewrite B, T. cbn [orb]. destruct (Rle_dec _ _) as [X|_]; [lra|reflexivity]. Qed.
Lemma quarter_settles g A : oblate g -> 4 * gd_f g < 8 * k_tol0 -> -90 < A < 0 -> k_tiny <= cos (radians A) -> settles g A 0 90 (4 * gd_f g).
Proof.
  intros O Hf HA T. pose proof tol0_pos as TP. assert (Hf' : gd_f g <= 1 / 100). { unfold k_tol0 in Hf. simpl in Hf. lra. }
  destruct (canon_setup g A 0 O HA ltac:(rewrite Rabs_R0; lra) T) as (U1 & U2 & E1 & E2 & C1 & C2 & R1 & R2 & N1 & Le & Fx).
  assert (R0 : radians 0 = 0) by (unfold radians, Rdiv; ring). assert (R9 : radians 90 = PI / 2) by (unfold radians; field).
  assert (S2 : sin U2 = 0 /\ cos U2 = 1).
  { destruct R2 as (h & Hh & A1 & A2). rewrite R0, sin_0 in A1. assert (Z : sin U2 = 0) by (apply Rmult_eq_reg_r with h; lra). split; [exact Z|]. pose proof (sc1 U2) as Q. rewrite Z in Q. nra. }
  destruct S2 as [S2 K2]. unfold settles, search, equation. rewrite E1, E2. cbv zeta. rewrite Fx, S2, K2, R9, sin_PI2, cos_PI2.
  assert (ST : forall dn1 dn2, InverseStart g (sin U1) (cos U1) dn1 0 1 dn2 (PI / 2) 1 0 = (1, 0)).
  { intros dn1 dn2. unfold InverseStart. cbv zeta. replace 0.5 with (/ 2) by lra. pose proof PI2_1 as P1. destruct (Rlt_dec (1 * (PI / 2)) (/ 2)) as [X|_]; [lra|].
    assert (E : (if Rle_dec 0 (1 * cos U1 + 0 * sin U1) then if Rlt_dec (0 * cos U1 - 1 * sin U1) (/ 2) then false else false else false) = false) by (destruct (Rle_dec 0 _); [destruct (Rlt_dec _ _)|]; reflexivity).
    rewrite E. destruct (Rle_dec 0 0) as [_|X]; [|lra]. destruct (Rle_dec 0 (sin U1 * 0 + cos U1 * 1 * 0)) as [_|X]; [|lra]. destruct (Rlt_dec 0 (1 * 1)) as [_|X]; [|lra].
    replace 1.0 with 1 by lra. replace (0 * cos U1 - 1 * sin U1 + 1 * sin U1 * 1 ^ 2 / (1 + 0)) with 0 by field. unfold norm2. replace (hypot (1 * 1) 0) with 1 by (symmetry; apply hypot_uniq; lra). f_equal; field. }
  rewrite ST. change k_maxit2 with (Datatypes.S 30) at 1.
  match goal with |- context [newton_loop (S 30) ?ev ?s ?l] => set (eval := ev); set (st := s) end.
  assert (V : forall dp, Rabs (l_lam12 (eval 1 0 dp)) <= 4 * gd_f g) by (intros dp; unfold eval; now apply quarter_residual).
  assert (NL : newton_loop (S 30) eval st no_lambda = (1, 0, eval 1 0 true)).
  { apply (newton_first 30 eval st no_lambda); [reflexivity|reflexivity|]. unfold st. cbn [n_salp1 n_calp1]. pose proof (V true). lra. }
  rewrite NL. split; [exists true; reflexivity|apply V].
Qed.
