(** A unit-speed geodesic is determined by its starting point and direction. *)
From Coq Require Import Reals Lra Lia Psatz.
From Coquelicot Require Import Coquelicot.
From Verif Require Import PyMath L_PyMath Spec Spec_geodesic L_aer L_geodesic1 L_geodesic2.
Open Scope R_scope.

Lemma vdot_abs p q : Rabs (vdot p q) <= vnorm p * vnorm q.
Proof.
  apply Rabs_le. split; [|apply vcauchy].
  pose proof (vcauchy (vscale (-1) p) q) as Q. assert (vnorm (vscale (-1) p) = vnorm p) as Qn. { unfold vnorm. f_equal. destruct p as [[? ?] ?]. cbn. ring. }
  rewrite Qn in Q. assert (vdot (vscale (-1) p) q = - vdot p q) as Qd by (destruct p as [[? ?] ?], q as [[? ?] ?]; cbn; ring). lra.
Qed.
Lemma vnorm_scale k p : vnorm (vscale k p) = Rabs k * vnorm p.
Proof.
  unfold vnorm. replace (vdot (vscale k p) (vscale k p)) with (k ^ 2 * vdot p p) by (destruct p as [[? ?] ?]; cbn; ring).
  rewrite sqrt_mult_alt by apply pow2_ge_0. f_equal. rewrite <- (Rabs_sqr k) at 1 || idtac. rewrite <- sqrt_Rsqr_abs. f_equal. unfold Rsqr. ring.
Qed.
Lemma vnorm_le_sq p K : 0 <= K -> vdot p p <= K ^ 2 -> vnorm p <= K.
Proof. intros H L. unfold vnorm. rewrite <- (sqrt_pow2 K) by exact H. now apply sqrt_le_1_alt. Qed.

Section Unique.
Variables (a b : R).
Hypothesis Hb : 0 < b.
Hypothesis Hab : b <= a.
Let G := gradient a b.
Let B := / b ^ 2.
Lemma Gsub p q : G (vsub p q) = vsub (G p) (G q).
Proof. destruct p as [[? ?] ?], q as [[? ?] ?]. cbn. apply f_equal2; [apply f_equal2|]; field; lra. Qed.
Lemma Bpos : 0 < B. Proof. apply Rinv_0_lt_compat. nra. Qed.
Lemma AB : 0 < / a ^ 2 <= B.
Proof. split; [apply Rinv_0_lt_compat; nra|]. apply Rinv_le_contravar; [nra|]. apply pow_incr. lra. Qed.
Lemma Gnorm p : vnorm (G p) <= B * vnorm p.
Proof.
  pose proof Bpos as P. pose proof AB as Q. apply vnorm_le_sq; [apply Rmult_le_pos; [lra|apply vnorm_nonneg]|].
  rewrite Rpow_mult_distr. replace (vnorm p ^ 2) with (vdot p p) by (rewrite <- vnorm_sq; ring).
  destruct p as [[x y] z]. cbn -[pow]. replace (x / a ^ 2 * (x / a ^ 2) + y / a ^ 2 * (y / a ^ 2) + z / b ^ 2 * (z / b ^ 2)) with ((/ a ^ 2) ^ 2 * (x ^ 2 + y ^ 2) + B ^ 2 * z ^ 2) by (unfold B; field; lra).
  assert ((/ a ^ 2) ^ 2 <= B ^ 2) by (apply pow_incr; lra). pose proof (pow2_ge_0 x). pose proof (pow2_ge_0 y). nra.
Qed.
Lemma Gsym p q : vdot p (G q) = vdot (G p) q.
Proof. destruct p as [[? ?] ?], q as [[? ?] ?]. cbn. field. lra. Qed.
Lemma Gderive c s v : vderive c s v -> vderive (fun x => G (c x)) s (G v).
Proof.
  destruct v as [[v1 v2] v3]. intros (C1 & C2 & C3). cbn [fst snd] in *. apply vderive_is; cbn [gradient G fst snd].
  - apply is_derive_ext with (f := fun x => / a ^ 2 * fst (fst (c x))). { intros x. destruct (c x) as [[? ?] ?]. cbn. unfold Rdiv. ring. }
    apply is_derive_Reals. replace (v1 / a ^ 2) with (/ a ^ 2 * v1) by (unfold Rdiv; ring). exact (derivable_pt_lim_scal _ _ _ _ C1).
  - apply is_derive_ext with (f := fun x => / a ^ 2 * snd (fst (c x))). { intros x. destruct (c x) as [[? ?] ?]. cbn. unfold Rdiv. ring. }
    apply is_derive_Reals. replace (v2 / a ^ 2) with (/ a ^ 2 * v2) by (unfold Rdiv; ring). exact (derivable_pt_lim_scal _ _ _ _ C2).
  - apply is_derive_ext with (f := fun x => / b ^ 2 * snd (c x)). { intros x. destruct (c x) as [[? ?] ?]. cbn. unfold Rdiv. ring. }
    apply is_derive_Reals. replace (v3 / b ^ 2) with (/ b ^ 2 * v3) by (unfold Rdiv; ring). exact (derivable_pt_lim_scal _ _ _ _ C3).
Qed.
Lemma on_eq p : on_ellipsoid a b p <-> vdot p (G p) = 1.
Proof. destruct p as [[x y] z]. unfold on_ellipsoid. cbn. replace (x * (x * 1)) with (x * x) by ring. replace (y * (y * 1)) with (y * y) by ring. replace (z * (z * 1)) with (z * z) by ring.
  replace (x * (x / (a * (a * 1))) + y * (y / (a * (a * 1))) + z * (z / (b * (b * 1)))) with (x * x / (a * (a * 1)) + y * y / (a * (a * 1)) + z * z / (b * (b * 1))) by (field; lra). tauto.
Qed.
Lemma on_norm p : on_ellipsoid a b p -> vnorm p <= a.
Proof.
  intros H. apply on_eq in H. apply vnorm_le_sq; [lra|]. destruct p as [[x y] z]. cbn -[pow] in *.
  pose proof AB as [A1 A2]. assert (E : x * (x / a ^ 2) + y * (y / a ^ 2) + z * (z / b ^ 2) = / a ^ 2 * (x ^ 2 + y ^ 2) + B * z ^ 2) by (unfold B; field; lra).
  assert (L : / a ^ 2 * (x * x + y * y + z * z) <= 1) by (pose proof (pow2_ge_0 z); nra).
  apply Rmult_le_reg_l with (/ a ^ 2); [lra|]. replace (/ a ^ 2 * a ^ 2) with 1 by (field; lra). exact L.
Qed.
(** the curvature is determined *)
Lemma curvature c t : unit_geodesic a b c t -> forall s k, vderive t s (vscale k (G (c s))) ->
  k * vdot (G (c s)) (G (c s)) = - vdot (t s) (G (t s)).
Proof.
  intros H s k HK.
  assert (T0 : forall x, vdot (t x) (G (c x)) = 0).
  { intros x. destruct (H x) as (_ & D & _). pose proof (vderive_dot c (fun y => G (c y)) x _ _ D (Gderive c x _ D)) as Q.
    assert (Z : is_derive (fun y => vdot (c y) (G (c y))) x 0).
    { apply is_derive_ext with (f := fun _ => 1). { intros y. symmetry. apply on_eq. apply (H y). } apply (is_derive_const (V := R_NormedModule)). }
    apply is_derive_unique in Q. apply is_derive_unique in Z. rewrite Q in Z. rewrite Gsym, (L_ecef.vdot_comm (G (c x)) (t x)) in Z || idtac.
    assert (E : vdot (c x) (G (t x)) = vdot (t x) (G (c x))) by (rewrite Gsym; apply L_ecef.vdot_comm).
    assert (E' : vdot (G (t x)) (c x) = vdot (t x) (G (c x))) by (rewrite Gsym; reflexivity). rewrite ?E, ?E' in Z. lra. }
  destruct (H s) as (_ & D & _). pose proof (vderive_dot t (fun y => G (c y)) s _ _ HK (Gderive c s _ D)) as Q.
  assert (Z : is_derive (fun y => vdot (t y) (G (c y))) s 0).
  { apply is_derive_ext with (f := fun _ => 0). { intros y. symmetry. apply T0. } apply (is_derive_const (V := R_NormedModule)). }
  apply is_derive_unique in Q. apply is_derive_unique in Z. rewrite Q in Z.
  assert (E : vdot (vscale k (G (c s))) (G (c s)) = k * vdot (G (c s)) (G (c s))) by (destruct (G (c s)) as [[? ?] ?]; cbn; ring). lra.
Qed.
Lemma G_lower p : on_ellipsoid a b p -> / a ^ 2 <= vdot (G p) (G p).
Proof.
  intros H. pose proof (on_norm p H) as N. apply on_eq in H. pose proof (vcauchy p (G p)) as C. rewrite H in C.
  pose proof (vnorm_nonneg (G p)) as P. pose proof (vnorm_nonneg p). rewrite <- vnorm_sq. assert (L : 1 <= a * vnorm (G p)) by nra.
  apply Rmult_le_reg_l with (a ^ 2); [nra|]. replace (a ^ 2 * / a ^ 2) with 1 by (field; lra). nra.
Qed.
Lemma gronwall E E' K : 0 <= K -> (forall s, is_derive E s (E' s)) -> (forall s, 0 <= E s) -> (forall s, Rabs (E' s) <= K * E s) -> E 0 = 0 -> forall s, E s = 0.
Proof.
  intros HK HD HP HE H0 s.
  assert (F1 : forall x, is_derive (fun x => E x * exp (- K * x)) x ((E' x - K * E x) * exp (- K * x))).
  { intros x. specialize (HD x). evar (d : R). match goal with |- is_derive _ _ ?e => replace e with d; [unfold d; auto_derive; [eexists; exact HD|reflexivity]|] end.
    unfold d. replace (Derive (fun x0 : R => E x0) x) with (E' x) by (symmetry; exact (is_derive_unique _ _ _ HD)). ring. }
  assert (F2 : forall x, is_derive (fun x => E x * exp (K * x)) x ((E' x + K * E x) * exp (K * x))).
  { intros x. specialize (HD x). evar (d : R). match goal with |- is_derive _ _ ?e => replace e with d; [unfold d; auto_derive; [eexists; exact HD|reflexivity]|] end.
    unfold d. replace (Derive (fun x0 : R => E x0) x) with (E' x) by (symmetry; exact (is_derive_unique _ _ _ HD)). ring. }
  destruct (Rle_dec 0 s) as [L|L].
  - destruct (MVT_gen (fun x => E x * exp (- K * x)) 0 s (fun x => (E' x - K * E x) * exp (- K * x))) as (c & _ & Q); [intros; apply F1|intros; apply derivable_continuous_pt; eexists; apply is_derive_Reals, F1|].
    rewrite H0, Rmult_0_l, Rminus_0_r in Q. specialize (HE c). apply Rabs_le_between in HE. pose proof (exp_pos (- K * c)). pose proof (exp_pos (- K * s)). pose proof (HP s).
    assert (0 <= (K * E c - E' c) * exp (- K * c) * (s - 0)) by (apply Rmult_le_pos; [apply Rmult_le_pos; lra|lra]).
    assert (E s * exp (- K * s) <= 0) by (rewrite Q; nra). nra.
  - destruct (MVT_gen (fun x => E x * exp (K * x)) s 0 (fun x => (E' x + K * E x) * exp (K * x))) as (c & _ & Q); [intros; apply F2|intros; apply derivable_continuous_pt; eexists; apply is_derive_Reals, F2|].
    rewrite H0, Rmult_0_l in Q. specialize (HE c). apply Rabs_le_between in HE. pose proof (exp_pos (K * c)). pose proof (exp_pos (K * s)). pose proof (HP s).
    apply Rnot_le_lt in L. assert (0 <= (E' c + K * E c) * exp (K * c) * (0 - s)) by (apply Rmult_le_pos; [apply Rmult_le_pos; lra|lra]).
    assert (E s * exp (K * s) <= 0) by lra. nra.
Qed.
Section Pair.
(** bounds at one instant *)
Variables (p q t u : vec3) (k l : R).
Hypothesis Hp : on_ellipsoid a b p.
Hypothesis Hq : on_ellipsoid a b q.
Hypothesis Ht : is_unit t.
Hypothesis Hu : is_unit u.
Hypothesis Hk : k * vdot (G p) (G p) = - vdot t (G t).
Hypothesis Hl : l * vdot (G q) (G q) = - vdot u (G u).
Let dp := vnorm (vsub p q).
Let dt := vnorm (vsub t u).
Lemma k_bound : Rabs k <= B * a ^ 2.
Proof.
  pose proof (G_lower p Hp) as N. pose proof (vdot_abs t (G t)) as Q. rewrite (unit_norm t Ht) in Q. pose proof (Gnorm t) as GT. rewrite (unit_norm t Ht) in GT.
  assert (E : Rabs k * vdot (G p) (G p) <= B).
  { rewrite <- (Rabs_right (vdot (G p) (G p))) by (pose proof AB; lra). rewrite <- Rabs_mult, Hk, Rabs_Ropp. lra. }
  pose proof (Rabs_pos k). assert (L : Rabs k * / a ^ 2 <= B) by (pose proof AB; nra).
  replace (Rabs k) with (Rabs k * / a ^ 2 * a ^ 2) by (field; lra). apply Rmult_le_compat_r; [nra|exact L].
Qed.
Lemma kl_bound : Rabs (k - l) <= 2 * a ^ 2 * B * dt + 2 * B ^ 3 * a ^ 5 * dp.
Proof.
  pose proof (G_lower q Hq) as N. pose proof k_bound as Kb. pose proof Bpos as Bp. pose proof AB as [A1 _].
  assert (E : (k - l) * vdot (G q) (G q) = - vdot (vsub t u) (G (vadd t u)) + k * vdot (G (vsub q p)) (vadd (G q) (G p))).
  { replace ((k - l) * vdot (G q) (G q)) with (k * vdot (G q) (G q) - l * vdot (G q) (G q)) by ring. rewrite Hl.
    assert (X1 : vdot (vsub t u) (G (vadd t u)) = vdot t (G t) - vdot u (G u)) by (destruct t as [[? ?] ?], u as [[? ?] ?]; cbn; field; lra).
    assert (X2 : vdot (G (vsub q p)) (vadd (G q) (G p)) = vdot (G q) (G q) - vdot (G p) (G p)) by (destruct p as [[? ?] ?], q as [[? ?] ?]; cbn; field; lra).
    rewrite X1, X2. lra. }
  assert (Y1 : Rabs (vdot (vsub t u) (G (vadd t u))) <= dt * (B * 2)).
  { eapply Rle_trans; [apply vdot_abs|]. fold dt. apply Rmult_le_compat_l; [apply vnorm_nonneg|]. eapply Rle_trans; [apply Gnorm|]. apply Rmult_le_compat_l; [lra|].
    eapply Rle_trans; [apply vnorm_triangle|]. rewrite (unit_norm t Ht), (unit_norm u Hu). lra. }
  assert (Y2 : Rabs (vdot (G (vsub q p)) (vadd (G q) (G p))) <= B * dp * (2 * B * a)).
  { eapply Rle_trans; [apply vdot_abs|]. pose proof (on_norm p Hp). pose proof (on_norm q Hq).
    assert (S : vnorm (vsub q p) = dp) by (unfold dp, vnorm; f_equal; destruct p as [[? ?] ?], q as [[? ?] ?]; cbn; ring).
    apply Rmult_le_compat; try apply vnorm_nonneg; [rewrite <- S; apply Gnorm|]. eapply Rle_trans; [apply vnorm_triangle|].
    pose proof (Gnorm p). pose proof (Gnorm q). nra. }
  assert (Dp : 0 <= dp) by apply vnorm_nonneg. assert (Dt : 0 <= dt) by apply vnorm_nonneg.
  assert (Z : Rabs (k - l) * / a ^ 2 <= dt * (B * 2) + B * a ^ 2 * (B * dp * (2 * B * a))).
  { apply Rle_trans with (Rabs (k - l) * vdot (G q) (G q)); [apply Rmult_le_compat_l; [apply Rabs_pos|exact N]|].
    rewrite <- (Rabs_right (vdot (G q) (G q))) by lra. rewrite <- Rabs_mult, E. eapply Rle_trans; [apply Rabs_triang|]. rewrite Rabs_Ropp, Rabs_mult.
    apply Rplus_le_compat; [exact Y1|]. apply Rmult_le_compat; try apply Rabs_pos; assumption. }
  replace (Rabs (k - l)) with (Rabs (k - l) * / a ^ 2 * a ^ 2) by (field; lra).
  replace (2 * a ^ 2 * B * dt + 2 * B ^ 3 * a ^ 5 * dp) with ((dt * (B * 2) + B * a ^ 2 * (B * dp * (2 * B * a))) * a ^ 2) by ring. apply Rmult_le_compat_r; [nra|exact Z].
Qed.
Definition Kg : R := 1 + (B ^ 2 * a ^ 2 + 2 * B ^ 4 * a ^ 6) + 2 * (2 * a ^ 3 * B ^ 2).
Lemma pair_bound : Rabs (2 * vdot (vsub p q) (vsub t u) + 2 * vdot (vsub t u) (vsub (vscale k (G p)) (vscale l (G q)))) <= Kg * (vdot (vsub p q) (vsub p q) + vdot (vsub t u) (vsub t u)).
Proof.
  pose proof Bpos as Bp. assert (Dp : 0 <= dp) by apply vnorm_nonneg. assert (Dt : 0 <= dt) by apply vnorm_nonneg.
  assert (Y : vnorm (vsub (vscale k (G p)) (vscale l (G q))) <= (B ^ 2 * a ^ 2 + 2 * B ^ 4 * a ^ 6) * dp + 2 * a ^ 3 * B ^ 2 * dt).
  { replace (vsub (vscale k (G p)) (vscale l (G q))) with (vadd (vscale k (G (vsub p q))) (vscale (k - l) (G q))).
    - eapply Rle_trans; [apply vnorm_triangle|]. rewrite !vnorm_scale. pose proof (Gnorm (vsub p q)) as G1. fold dp in G1. pose proof (Gnorm q) as G2. pose proof (on_norm q Hq) as G3.
      assert (G2' : vnorm (G q) <= B * a) by nra. pose proof k_bound. pose proof kl_bound.
      replace ((B ^ 2 * a ^ 2 + 2 * B ^ 4 * a ^ 6) * dp + 2 * a ^ 3 * B ^ 2 * dt) with (B * a ^ 2 * (B * dp) + (2 * a ^ 2 * B * dt + 2 * B ^ 3 * a ^ 5 * dp) * (B * a)) by ring.
      apply Rplus_le_compat; apply Rmult_le_compat; try apply Rabs_pos; try apply vnorm_nonneg; assumption.
    - destruct p as [[? ?] ?], q as [[? ?] ?]. cbn. apply f_equal2; [apply f_equal2|]; field; lra. }
  rewrite <- !vnorm_sq. fold dp dt. set (L1 := B ^ 2 * a ^ 2 + 2 * B ^ 4 * a ^ 6) in *. set (L2 := 2 * a ^ 3 * B ^ 2) in *.
  assert (P1 : 0 <= L1) by (unfold L1; apply Rplus_le_le_0_compat; repeat apply Rmult_le_pos; try lra; apply pow_le; lra).
  assert (P2 : 0 <= L2) by (unfold L2; repeat apply Rmult_le_pos; try lra; apply pow_le; lra).
  unfold Kg. fold L1 L2. pose proof (vdot_abs (vsub p q) (vsub t u)) as V1. fold dp dt in V1. pose proof (vdot_abs (vsub t u) (vsub (vscale k (G p)) (vscale l (G q)))) as V2. fold dt in V2.
  assert (V2' : Rabs (vdot (vsub t u) (vsub (vscale k (G p)) (vscale l (G q)))) <= dt * (L1 * dp + L2 * dt)) by (eapply Rle_trans; [exact V2|]; apply Rmult_le_compat_l; assumption).
  apply Rle_trans with (2 * (dp * dt) + 2 * (dt * (L1 * dp + L2 * dt))).
  - eapply Rle_trans; [apply Rabs_triang|]. rewrite !Rabs_mult, (Rabs_right 2) by lra. lra.
  - assert (2 * (dp * dt) <= dp * dp + dt * dt) by (pose proof (pow2_ge_0 (dp - dt)); nra).
    assert (L1 * (2 * (dp * dt)) <= L1 * (dp * dp + dt * dt)) by (apply Rmult_le_compat_l; assumption).
    assert (0 <= L2 * (dp * dp)) by (apply Rmult_le_pos; [assumption|nra]). nra.
Qed.
End Pair.
Lemma vzero p : vdot p p = 0 -> p = (0, 0, 0).
Proof. destruct p as [[x y] z]. cbn. intros H. assert (x = 0) by nra. assert (y = 0) by nra. assert (z = 0) by nra. now subst. Qed.
Lemma vsub0 p q : vsub p q = (0, 0, 0) -> p = q.
Proof. destruct p as [[x y] z], q as [[x' y'] z']. cbn. intros H. apply pair_equal_spec in H. destruct H as [H Hz]. apply pair_equal_spec in H. destruct H as [Hx Hy]. apply f_equal2; [apply f_equal2|]; lra. Qed.
Theorem geodesic_unique c t d u : unit_geodesic a b c t -> unit_geodesic a b d u -> c 0 = d 0 -> t 0 = u 0 -> forall s, c s = d s /\ t s = u s.
Proof.
  intros H1 H2 E1 E2.
  set (E := fun s => vdot (vsub (c s) (d s)) (vsub (c s) (d s)) + vdot (vsub (t s) (u s)) (vsub (t s) (u s))).
  set (E' := fun s => Derive E s).
  assert (D : forall s, is_derive E s (E' s) /\ Rabs (E' s) <= Kg * E s).
  { intros s. destruct (H1 s) as (O1 & D1 & N1 & k & K1). destruct (H2 s) as (O2 & D2 & N2 & l & K2).
    pose proof (curvature c t H1 s k K1) as C1. pose proof (curvature d u H2 s l K2) as C2.
    pose proof (pair_bound (c s) (d s) (t s) (u s) k l O1 O2 N1 N2 C1 C2) as PB.
    pose proof (vderive_sub c d s _ _ D1 D2) as Dc. pose proof (vderive_sub t u s _ _ K1 K2) as Dt.
    pose proof (vderive_dot _ _ s _ _ Dc Dc) as Q1. pose proof (vderive_dot _ _ s _ _ Dt Dt) as Q2. cbv beta in Q1, Q2.
    pose proof (is_derive_plus (V := R_NormedModule) _ _ s _ _ Q1 Q2) as Q. 
    assert (Q' : is_derive E s (2 * vdot (vsub (c s) (d s)) (vsub (t s) (u s)) + 2 * vdot (vsub (t s) (u s)) (vsub (vscale k (G (c s))) (vscale l (G (d s)))))).
    { match type of Q with is_derive _ _ ?v => assert (Ev : v = 2 * vdot (vsub (c s) (d s)) (vsub (t s) (u s)) + 2 * vdot (vsub (t s) (u s)) (vsub (vscale k (G (c s))) (vscale l (G (d s))))) end.
      { unfold plus; cbn -[vdot vsub vscale gradient]. rewrite (L_ecef.vdot_comm (vsub (t s) (u s)) (vsub (c s) (d s))). fold G. rewrite (L_ecef.vdot_comm (vsub (vscale k (G (c s))) (vscale l (G (d s)))) (vsub (t s) (u s))). ring. }
      rewrite <- Ev. exact Q. }
    assert (X : E' s = 2 * vdot (vsub (c s) (d s)) (vsub (t s) (u s)) + 2 * vdot (vsub (t s) (u s)) (vsub (vscale k (G (c s))) (vscale l (G (d s))))) by (apply is_derive_unique; exact Q').
    rewrite X. split; [exact Q'|exact PB]. }
  assert (Z : forall s, E s = 0).
  { apply (gronwall E E' Kg).
    - unfold Kg. pose proof Bpos. assert (0 <= B ^ 2 * a ^ 2) by (apply Rmult_le_pos; apply pow_le; lra). assert (0 <= B ^ 4 * a ^ 6) by (apply Rmult_le_pos; apply pow_le; lra). assert (0 <= a ^ 3 * B ^ 2) by (apply Rmult_le_pos; apply pow_le; lra). nra.
    - intros s. apply D.
    - intros s. unfold E. apply Rplus_le_le_0_compat; apply vdot_self_nonneg.
    - intros s. apply D.
    - unfold E. rewrite E1, E2. destruct (d 0) as [[? ?] ?], (u 0) as [[? ?] ?]. cbn. ring. }
  intros s. specialize (Z s). unfold E in Z. pose proof (vdot_self_nonneg (vsub (c s) (d s))). pose proof (vdot_self_nonneg (vsub (t s) (u s))).
  split; apply vsub0, vzero; lra.
Qed.
End Unique.
