(** Lemmas for n-vectors and angular separation. *)
From Coq Require Import Lia Psatz Permutation.
From Verif Require Import PyMath L_PyMath M_ellipsoid M_ecef M_rsphere M_nvector M_haversine Spec L_ell L_ecef L_frames L_aer.
Open Scope R_scope.

Ltac dvec := repeat match goal with v : vec3 |- _ => destruct v as [[? ?] ?] end.

Lemma dot3_vdot p q : dot3 p q = vdot p q. Proof. reflexivity. Qed.
Lemma cross3_vcross p q : cross3 p q = vcross p q. Proof. reflexivity. Qed.

(** Lagrange *)
Lemma lagrange p q : vdot (vcross p q) (vcross p q) = vdot p p * vdot q q - vdot p q ^ 2.
Proof. dvec. unfold vdot, vcross. ring. Qed.
Lemma unit_dot_range p q : is_unit p -> is_unit q -> -1 <= vdot p q <= 1.
Proof.
  unfold is_unit. intros Hp Hq. pose proof (lagrange p q) as L. rewrite Hp, Hq in L.
  pose proof (vdot_self_nonneg (vcross p q)). nra.
Qed.
Lemma angle_range p q : is_unit p -> is_unit q -> 0 <= unit_angle p q <= PI.
Proof. intros. apply acos_bound. Qed.
Lemma cos_angle p q : is_unit p -> is_unit q -> cos (unit_angle p q) = vdot p q.
Proof. intros Hp Hq. apply cos_acos, unit_dot_range; assumption. Qed.
Lemma sin_angle p q : is_unit p -> is_unit q -> sin (unit_angle p q) = vnorm (vcross p q).
Proof.
  intros Hp Hq. unfold unit_angle. rewrite sin_acos by now apply unit_dot_range.
  unfold vnorm. f_equal. rewrite lagrange. unfold is_unit in *. rewrite Hp, Hq. unfold Rsqr. ring.
Qed.
Lemma distance_angle p q r : is_unit p -> is_unit q ->
  nvector_distance p q r = radius_of r * unit_angle p q.
Proof.
  intros Hp Hq. unfold nvector_distance.
  replace (let '(cx, cy, cz) := cross3 p q in radius_of r * atan2 (sqrt (cx * cx + cy * cy + cz * cz)) (dot3 p q))
    with (radius_of r * atan2 (vnorm (vcross p q)) (vdot p q)).
  2:{ rewrite <- cross3_vcross. destruct (cross3 p q) as [[cx cy] cz]. reflexivity. }
  f_equal. rewrite <- (sin_angle p q Hp Hq), <- (cos_angle p q Hp Hq).
  pose proof (angle_range p q Hp Hq). pose proof PI_RGT_0.
  rewrite <- (Rmult_1_l (sin _)), <- (Rmult_1_l (cos _)). apply atan2_polar; lra.
Qed.
Lemma angle_sym p q : unit_angle p q = unit_angle q p.
Proof. unfold unit_angle. f_equal. apply vdot_comm. Qed.
Lemma angle_0 p q : is_unit p -> is_unit q -> unit_angle p q = 0 <-> p = q.
Proof.
  intros Hp Hq. split.
  - intros E. apply unit_dot_eq1; [assumption..|]. rewrite <- (cos_angle p q Hp Hq), E. apply cos_0.
  - intros ->. unfold unit_angle. rewrite Hq. apply acos_1.
Qed.
Lemma angle_PI p q : is_unit p -> is_unit q -> unit_angle p q = PI <-> q = vopp p.
Proof.
  intros Hp Hq.
  assert (Ho : is_unit (vopp p)) by (unfold is_unit in *; rewrite <- Hp; dvec; unfold vdot, vopp; ring).
  assert (Hd : forall v, vdot p (vopp v) = - vdot p v) by (intros; dvec; unfold vdot, vopp; ring).
  assert (Hd' : forall v, vdot (vopp p) v = - vdot p v) by (intros; dvec; unfold vdot, vopp; ring).
  split.
  - intros E. symmetry. apply unit_dot_eq1; [assumption..|]. rewrite Hd'.
    rewrite <- (cos_angle p q Hp Hq), E, cos_PI. ring.
  - intros ->. unfold unit_angle. rewrite Hd, Hp. rewrite acos_opp, acos_1. lra.
Qed.
(** triangle inequality *)
Lemma gram p q r : is_unit p -> is_unit q -> is_unit r ->
  (vdot p r - vdot p q * vdot q r) ^ 2 <= (1 - vdot p q ^ 2) * (1 - vdot q r ^ 2).
Proof.
  unfold is_unit. intros Hp Hq Hr.
  set (u := vsub p (vscale (vdot p q) q)). set (v := vsub r (vscale (vdot q r) q)).
  assert (Eu : vdot u u = 1 - vdot p q ^ 2).
  { transitivity (vdot p p - 2 * vdot p q ^ 2 + vdot p q ^ 2 * vdot q q).
    - unfold u. destruct p as [[p1 p2] p3], q as [[q1 q2] q3]. unfold vsub, vscale, vdot. ring.
    - rewrite Hp, Hq. ring. }
  assert (Ev : vdot v v = 1 - vdot q r ^ 2).
  { transitivity (vdot r r - 2 * vdot q r ^ 2 + vdot q r ^ 2 * vdot q q).
    - unfold v. destruct r as [[p1 p2] p3], q as [[q1 q2] q3]. unfold vsub, vscale, vdot. ring.
    - rewrite Hr, Hq. ring. }
  assert (Euv : vdot u v = vdot p r - vdot p q * vdot q r).
  { transitivity (vdot p r - 2 * (vdot p q * vdot q r) + vdot p q * vdot q r * vdot q q).
    - unfold u, v. destruct p as [[p1 p2] p3], r as [[r1 r2] r3], q as [[q1 q2] q3]. unfold vsub, vscale, vdot. ring.
    - rewrite Hq. ring. }
  rewrite <- Eu, <- Ev, <- Euv. pose proof (lagrange u v). pose proof (vdot_self_nonneg (vcross u v)). lra.
Qed.
Lemma angle_triangle p q r : is_unit p -> is_unit q -> is_unit r ->
  unit_angle p r <= unit_angle p q + unit_angle q r.
Proof.
  intros Hp Hq Hr. pose proof (angle_range p q Hp Hq). pose proof (angle_range q r Hq Hr).
  pose proof (angle_range p r Hp Hr).
  destruct (Rle_dec PI (unit_angle p q + unit_angle q r)) as [L|L]; [lra|].
  apply Rnot_lt_le. intros Z.
  assert (C : cos (unit_angle p r) < cos (unit_angle p q + unit_angle q r)) by (apply cos_decreasing_1; lra).
  rewrite cos_plus in C. rewrite !cos_angle in C by assumption.
  assert (Sp : 0 <= sin (unit_angle p q)) by (apply sin_ge_0; lra).
  assert (Sq : 0 <= sin (unit_angle q r)) by (apply sin_ge_0; lra).
  assert (E1 : sin (unit_angle p q) ^ 2 = 1 - vdot p q ^ 2) by (rewrite sin_pow2, cos_angle by assumption; reflexivity).
  assert (E2 : sin (unit_angle q r) ^ 2 = 1 - vdot q r ^ 2) by (rewrite sin_pow2, cos_angle by assumption; reflexivity).
  pose proof (gram p q r Hp Hq Hr) as G. rewrite <- E1, <- E2 in G.
  set (s1 := sin (unit_angle p q)) in *. set (s2 := sin (unit_angle q r)) in *.
  assert (0 <= s1 * s2) by nra. set (w := vdot p r - vdot p q * vdot q r) in *.
  assert (w < - (s1 * s2)) by (unfold w; lra). nra.
Qed.

(** norm3 *)
Lemma norm3_spec a : (norm3 a = None /\ a = (0, 0, 0)) \/
  (a <> (0,0,0) /\ norm3 a = Some (vscale (/ vnorm a) a) /\ is_unit (vscale (/ vnorm a) a) /\ 0 < vnorm a).
Proof.
  destruct a as [[a1 a2] a3]. unfold norm3.
  change (sqrt (a1 * a1 + a2 * a2 + a3 * a3)) with (vnorm (a1, a2, a3)).
  pose proof (vnorm_nonneg (a1,a2,a3)) as H0. pose proof (vnorm_sq (a1,a2,a3)) as H2.
  destruct (Req_EM_T (vnorm (a1, a2, a3)) 0) as [E|E].
  - left. split; [reflexivity|]. rewrite E in H2. unfold vdot in H2.
    assert (a1 = 0) by nra. assert (a2 = 0) by nra. assert (a3 = 0) by nra. subst. reflexivity.
  - right. repeat split.
    + intros X. injection X as -> -> ->. apply E. unfold vnorm, vdot.
      replace (0*0+0*0+0*0) with 0 by ring. apply sqrt_0.
    + apply (f_equal Some). apply pair3_eq; unfold Rdiv; ring.
    + unfold is_unit. transitivity (/ vnorm (a1,a2,a3) * / vnorm (a1,a2,a3) * vdot (a1,a2,a3) (a1,a2,a3)).
      * generalize (vnorm (a1, a2, a3)). intros k. unfold vscale, vdot. ring.
      * rewrite <- H2. field. assumption.
    + lra.
Qed.
Lemma norm3_unit a : is_unit a -> norm3 a = Some a.
Proof.
  intros Hu. assert (N : vnorm a = 1) by (unfold vnorm; rewrite Hu; apply sqrt_1).
  destruct (norm3_spec a) as [[_ E]|(_ & E & _)].
  - subst. unfold is_unit, vdot in Hu. lra.
  - rewrite E, N. f_equal. dvec. unfold vscale. apply pair3_eq; field.
Qed.

(** interpolate *)
Lemma vdot_lincomb_r a p b q v : vdot v (lincomb3 a p b q) = a * vdot v p + b * vdot v q.
Proof. dvec. unfold vdot, lincomb3. ring. Qed.
Lemma vdot_lincomb_self a p b q : is_unit p -> is_unit q ->
  vdot (lincomb3 a p b q) (lincomb3 a p b q) = a ^ 2 + b ^ 2 + 2 * a * b * vdot p q.
Proof.
  unfold is_unit. intros Hp Hq.
  transitivity (a ^ 2 * vdot p p + b ^ 2 * vdot q q + 2 * a * b * vdot p q).
  - dvec. unfold vdot, lincomb3. ring.
  - rewrite Hp, Hq. ring.
Qed.
Lemma vdot_lincomb_cross a p b q : vdot (lincomb3 a p b q) (vcross p q) = 0.
Proof. dvec. unfold vdot, lincomb3, vcross. ring. Qed.
Lemma clamp_unit p q : is_unit p -> is_unit q -> acos (Rmax (-1) (Rmin 1 (dot3 p q))) = unit_angle p q.
Proof.
  intros Hp Hq. pose proof (unit_dot_range p q Hp Hq). unfold unit_angle. f_equal.
  rewrite dot3_vdot, Rmin_right, Rmax_right by lra. reflexivity.
Qed.
Lemma slerp_norm f w : sin w <> 0 ->
  (sin ((1 - f) * w) / sin w) ^ 2 + (sin (f * w) / sin w) ^ 2
  + 2 * (sin ((1 - f) * w) / sin w) * (sin (f * w) / sin w) * cos w = 1.
Proof.
  intros Hs. replace ((1 - f) * w) with (w - f * w) by ring. rewrite sin_minus.
  set (A := f * w). apply Rmult_eq_reg_r with (sin w ^ 2); [|now apply pow_nonzero].
  transitivity ((sin w * cos A - cos w * sin A) ^ 2 + sin A ^ 2 + 2 * (sin w * cos A - cos w * sin A) * sin A * cos w).
  - field. assumption.
  - pose proof (sin_sq A) as HA. pose proof (sin_sq w) as Hw. ring [HA Hw].
Qed.
Lemma slerp_dot f w : sin w <> 0 ->
  (sin ((1 - f) * w) / sin w) * 1 + (sin (f * w) / sin w) * cos w = cos (f * w).
Proof.
  intros Hs. replace ((1 - f) * w) with (w - f * w) by ring. rewrite sin_minus. field. assumption.
Qed.
Lemma interpolate_slerp p q f : is_unit p -> is_unit q -> p <> vopp q ->
  1 / 10000000000 <= unit_angle p q ->
  exists r, nvector_interpolate p q f = Some r /\ is_unit r /\ vdot r (vcross p q) = 0 /\
    vdot p r = cos (f * unit_angle p q) /\ vdot q r = cos ((1 - f) * unit_angle p q).
Proof.
  intros Hp Hq Hne Hw. pose proof (angle_range p q Hp Hq) as Hr. pose proof (cos_angle p q Hp Hq) as Hcos.
  assert (HPI : unit_angle p q <> PI).
  { intros E. apply angle_PI in E; [|assumption..]. apply Hne. subst q. dvec. unfold vopp. apply pair3_eq; ring. }
  assert (Hs : 0 < sin (unit_angle p q)) by (apply sin_gt_0; lra).
  unfold nvector_interpolate. rewrite clamp_unit by assumption. rewrite Rabs_right by lra.
  destruct (Rlt_dec (unit_angle p q) (1 / 10000000000)); [lra|].
  destruct (Req_EM_T (sin (unit_angle p q)) 0); [lra|].
  set (w := unit_angle p q) in *. set (a := sin ((1 - f) * w) / sin w). set (b := sin (f * w) / sin w).
  assert (Hu : is_unit (lincomb3 a p b q)).
  { unfold is_unit. rewrite vdot_lincomb_self by assumption. rewrite <- Hcos. unfold a, b. apply slerp_norm. lra. }
  exists (lincomb3 a p b q). repeat split.
  - now apply norm3_unit.
  - exact Hu.
  - apply vdot_lincomb_cross.
  - rewrite vdot_lincomb_r. unfold is_unit in Hp. rewrite Hp, <- Hcos. unfold a, b. apply slerp_dot. lra.
  - rewrite vdot_lincomb_r, (vdot_comm q p). unfold is_unit in Hq. rewrite Hq, <- Hcos.
    unfold a, b. rewrite Rplus_comm, (Rmult_comm _ (cos w)), (Rmult_comm _ 1), (Rmult_comm 1), (Rmult_comm (cos w)).
    replace (f * w) with ((1 - (1 - f)) * w) by ring. apply slerp_dot. lra.
Qed.
Lemma lin_dot f c : -1 <= c <= 1 -> 0 <= f <= 1 ->
  (1 - f) ^ 2 + f ^ 2 + 2 * (1 - f) * f * c <= 1.
Proof.
  intros. assert (0 <= f * (1 - f)) by nra. assert (0 <= f * (1 - f) * (1 - c)) by (apply Rmult_le_pos; lra). lra.
Qed.
Lemma interpolate_lerp p q f : is_unit p -> is_unit q -> 0 <= f <= 1 ->
  unit_angle p q < 1 / 10000000000 ->
  exists r, nvector_interpolate p q f = Some r /\ is_unit r /\ vdot r (vcross p q) = 0 /\
    unit_angle p r <= unit_angle p q /\ (f = 0 -> r = p) /\ (f = 1 -> r = q).
Proof.
  intros Hp Hq Hf Hw. pose proof (angle_range p q Hp Hq) as Hr. pose proof (cos_angle p q Hp Hq) as Hcos.
  assert (Hc0 : 0 < vdot p q).
  { rewrite <- Hcos. apply cos_gt_0; pose proof PI2_3_2; lra. }
  unfold nvector_interpolate. rewrite clamp_unit by assumption. rewrite Rabs_right by lra.
  destruct (Rlt_dec (unit_angle p q) (1 / 10000000000)); [|lra].
  set (v := lincomb3 (1 - f) p f q).
  assert (Ev : vdot v v = (1 - f) ^ 2 + f ^ 2 + 2 * (1 - f) * f * vdot p q) by now apply vdot_lincomb_self.
  assert (Vp : 0 < vdot v v).
  { rewrite Ev. assert (0 <= (1 - f) * f * vdot p q) by (apply Rmult_le_pos; [apply Rmult_le_pos|]; lra). nra. }
  destruct (norm3_spec v) as [[_ E]|(_ & E & Hu & Hn)].
  { rewrite E in Vp. unfold vdot in Vp. lra. }
  exists (vscale (/ vnorm v) v). rewrite E.
  assert (Hsc : forall k a b, vdot a (vscale k b) = k * vdot a b) by (intros; dvec; unfold vdot, vscale; ring).
  repeat split.
  - exact Hu.
  - rewrite vdot_comm, Hsc, vdot_comm. unfold v. rewrite vdot_lincomb_cross. ring.
  - (* p.r >= p.q *)
    assert (D : vdot p q <= vdot p (vscale (/ vnorm v) v)).
    { rewrite Hsc. unfold v at 2. rewrite vdot_lincomb_r. unfold is_unit in Hp. rewrite Hp.
      assert (N1 : vnorm v <= 1).
      { pose proof (vnorm_sq v) as N2. rewrite Ev in N2.
        pose proof (lin_dot f (vdot p q) (unit_dot_range p q Hp Hq) Hf). nra. }
      pose proof (unit_dot_range p q Hp Hq).
      apply Rmult_le_reg_l with (vnorm v); [assumption|]. rewrite <- Rmult_assoc, Rinv_r by lra.
      apply Rle_trans with (1 * vdot p q); [apply Rmult_le_compat_r; lra|]. nra. }
    apply Rnot_lt_le. intros Z.
    assert (cos (unit_angle p (vscale (/ vnorm v) v)) < cos (unit_angle p q)).
    { pose proof (angle_range p _ Hp Hu). apply cos_decreasing_1; lra. }
    rewrite !cos_angle in * by assumption. lra.
  - intros ->. assert (Ep : v = p) by (unfold v; clear; dvec; unfold lincomb3; apply pair3_eq; ring).
    rewrite Ep. replace (vnorm p) with 1 by (unfold vnorm; unfold is_unit in Hp; rewrite Hp; symmetry; apply sqrt_1).
    clear. dvec. unfold vscale. apply pair3_eq; field.
  - intros ->. assert (Ep : v = q) by (unfold v; clear; dvec; unfold lincomb3; apply pair3_eq; ring).
    rewrite Ep. replace (vnorm q) with 1 by (unfold vnorm; unfold is_unit in Hq; rewrite Hq; symmetry; apply sqrt_1).
    clear. dvec. unfold vscale. apply pair3_eq; field.
Qed.

(** mean *)
Lemma fold_Rplus_acc l a : fold_left Rplus l a = a + fold_left Rplus l 0.
Proof.
  revert a. induction l as [|x l IH]; intros a; cbn; [ring|]. rewrite (IH (a + x)), (IH (0 + x)). ring.
Qed.
Lemma py_sum_perm l l' : Permutation l l' -> py_sum l = py_sum l'.
Proof.
  unfold py_sum. induction 1 as [|x l l' _ IH|x y l|l1 l2 l3 _ IH1 _ IH2]; cbn.
  - reflexivity.
  - rewrite fold_Rplus_acc, IH, <- fold_Rplus_acc. reflexivity.
  - f_equal. ring.
  - congruence.
Qed.

(** cross track *)
Lemma cross_track_spec p q n r : is_unit p -> is_unit q -> is_unit n -> vcross p q <> (0,0,0) ->
  exists d, nvector_cross_track_distance p q n r = Some (radius_of r * d) /\ - (PI/2) <= d <= PI/2 /\
    sin d * vnorm (vcross p q) = vdot (vcross p q) n /\
    (forall g, on_great_circle p q g -> Rabs d <= unit_angle n g) /\
    (exists g, on_great_circle p q g /\ Rabs d = unit_angle n g).
Proof.
  intros Hp Hq Hn Hne. unfold nvector_cross_track_distance. rewrite cross3_vcross.
  destruct (norm3_spec (vcross p q)) as [[_ E]|(_ & E & Hu & Hv)]; [contradiction|].
  rewrite E. set (c := vscale (/ vnorm (vcross p q)) (vcross p q)) in *. rewrite dot3_vdot.
  set (s := vdot c n). assert (Hs : -1 <= s <= 1) by (apply unit_dot_range; assumption).
  assert (Hsc : forall k a b, vdot (vscale k a) b = k * vdot a b) by (intros; dvec; unfold vdot, vscale; ring).
  assert (Hsc2 : forall k a b, vdot a (vscale k b) = k * vdot a b) by (intros; dvec; unfold vdot, vscale; ring).
  assert (Hsub : forall a b v, vdot v (vsub a b) = vdot v a - vdot v b) by (intros; dvec; unfold vdot, vsub; ring).
  assert (Hsub2 : forall a b v, vdot (vsub a b) v = vdot a v - vdot b v) by (intros; dvec; unfold vdot, vsub; ring).
  assert (Gc : forall g, on_great_circle p q g -> vdot c g = 0).
  { intros g [_ Hg]. unfold c. rewrite Hsc, vdot_comm, Hg. ring. }
  exists (asin s). pose proof (asin_bound s) as Hb.
  assert (Hcos : cos (asin s) = sqrt (1 - s ^ 2)) by (rewrite cos_asin by lra; f_equal; unfold Rsqr; ring).
  assert (HcosA : cos (Rabs (asin s)) = sqrt (1 - s ^ 2)).
  { unfold Rabs. destruct (Rcase_abs (asin s)); [rewrite cos_neg|]; exact Hcos. }
  assert (Hsq : 0 <= 1 - s ^ 2) by nra.
  assert (HA : 0 <= Rabs (asin s) <= PI).
  { split; [apply Rabs_pos|]. apply Rabs_le. pose proof PI_RGT_0. lra. }
  set (u := vsub n (vscale s c)).
  assert (Euu : vdot u u = 1 - s ^ 2).
  { unfold u. rewrite Hsub, !Hsub2, !Hsc, !Hsc2. fold s. rewrite (vdot_comm n c). fold s.
    unfold is_unit in Hn, Hu. rewrite Hn, Hu. ring. }
  repeat split.
  - lra.
  - lra.
  - rewrite sin_asin by lra. unfold s, c. rewrite Hsc. field. lra.
  - intros g Hg. pose proof (Gc g Hg) as Hcg. destruct Hg as [Hgu _].
    assert (D : vdot n g <= sqrt (1 - s ^ 2)).
    { assert (vdot n g = vdot u g) as ->. { unfold u. rewrite Hsub2, Hsc, Hcg. ring. }
      pose proof (vcauchy u g) as C. unfold vnorm in C. rewrite Euu in C. unfold is_unit in Hgu.
      rewrite Hgu, sqrt_1, Rmult_1_r in C. exact C. }
    apply Rnot_lt_le. intros Z.
    assert (cos (Rabs (asin s)) < cos (unit_angle n g)).
    { pose proof (angle_range n g Hn Hgu). apply cos_decreasing_1; lra. }
    rewrite cos_angle, HcosA in * by assumption. lra.
  - destruct (Req_dec (s ^ 2) 1) as [S1|S1].
    + (* pole: every great-circle point is at 90 degrees *)
      assert (U0 : u = (0,0,0)).
      { rewrite S1, Rminus_eq_0 in Euu. destruct u as [[u1 u2] u3]. unfold vdot in Euu.
        assert (u1 = 0) by nra. assert (u2 = 0) by nra. assert (u3 = 0) by nra. subst. reflexivity. }
      assert (Gp : on_great_circle p q p).
      { split; [assumption|]. clear. dvec. unfold vdot, vcross. ring. }
      exists p. split; [exact Gp|]. unfold unit_angle.
      assert (vdot n p = 0) as ->.
      { replace (vdot n p) with (vdot u p + s * vdot c p).
        - rewrite U0, (Gc p Gp). clear. dvec. unfold vdot. ring.
        - unfold u. rewrite Hsub2, Hsc. ring. }
      rewrite acos_0. apply (f_equal acos) in HcosA. rewrite acos_cos in HcosA by lra.
      rewrite HcosA. replace (1 - s ^ 2) with 0 by lra. rewrite sqrt_0, acos_0. reflexivity.
    + assert (Pu : 0 < vdot u u) by (rewrite Euu; lra).
      destruct (norm3_spec u) as [[_ E0]|(_ & _ & Hgu & Hun)].
      { rewrite E0 in Pu. unfold vdot in Pu. lra. }
      assert (Uc : vdot u (vcross p q) = 0).
      { assert (vdot u c = 0) as Z. { unfold u. rewrite Hsub2, Hsc, (vdot_comm n c). fold s. unfold is_unit in Hu. rewrite Hu. ring. }
        unfold c in Z. rewrite Hsc2 in Z. apply Rmult_integral in Z. destruct Z as [Z|Z]; [|exact Z].
        apply Rinv_neq_0_compat in Z; [contradiction|lra]. }
      exists (vscale (/ vnorm u) u). split.
      * split; [exact Hgu|]. rewrite Hsc, Uc. ring.
      * unfold unit_angle. rewrite Hsc2.
        assert (vdot n u = 1 - s ^ 2) as ->. { unfold u. rewrite Hsub, Hsc2, (vdot_comm n c). fold s. unfold is_unit in Hn. rewrite Hn. ring. }
        rewrite <- (acos_cos (Rabs (asin s))) by lra. f_equal. rewrite HcosA.
        unfold vnorm. rewrite Euu. symmetry. rewrite <- (sqrt_sqrt (1 - s ^ 2)) at 2 by lra. field.
        apply Rgt_not_eq, sqrt_lt_R0. lra.
Qed.

(** intersection *)
Lemma vcross_perp_parallel v c1 c2 : vdot v c1 = 0 -> vdot v c2 = 0 -> vcross v (vcross c1 c2) = (0,0,0).
Proof.
  intros H1 H2.
  assert (E : vcross v (vcross c1 c2) = vsub (vscale (vdot v c2) c1) (vscale (vdot v c1) c2)).
  { clear. dvec. unfold vcross, vsub, vscale, vdot. apply pair3_eq; ring. }
  rewrite E, H1, H2. clear. dvec. unfold vsub, vscale. apply pair3_eq; ring.
Qed.
Lemma intersection_spec p1 p2 p3 p4 : vcross (vcross p1 p2) (vcross p3 p4) <> (0,0,0) ->
  exists i, nvector_intersection p1 p2 p3 p4 = Some i /\
    on_great_circle p1 p2 i /\ on_great_circle p3 p4 i /\
    0 <= vdot i (vadd (vadd p1 p2) (vadd p3 p4)) /\
    (forall j, on_great_circle p1 p2 j -> on_great_circle p3 p4 j -> j = i \/ j = vopp i).
Proof.
  intros Hne. unfold nvector_intersection. cbv zeta.
  change (cross3 p1 p2) with (vcross p1 p2). change (cross3 p3 p4) with (vcross p3 p4).
  change cross3 with vcross.
  set (c := vcross (vcross p1 p2) (vcross p3 p4)) in *.
  destruct (norm3_spec c) as [[_ E]|(_ & E & Hu & Hv)]; [contradiction|]. rewrite E.
  set (i := vscale (/ vnorm c) c) in *.
  assert (Hsc : forall k a b, vdot (vscale k a) b = k * vdot a b) by (intros; dvec; unfold vdot, vscale; ring).
  assert (O1 : vdot i (vcross p1 p2) = 0).
  { unfold i. rewrite Hsc. unfold c. generalize (vcross p1 p2) (vcross p3 p4). intros. dvec. unfold vdot, vcross. ring. }
  assert (O2 : vdot i (vcross p3 p4) = 0).
  { unfold i. rewrite Hsc. unfold c. generalize (vcross p1 p2) (vcross p3 p4). intros. dvec. unfold vdot, vcross. ring. }
  assert (U : forall j, on_great_circle p1 p2 j -> on_great_circle p3 p4 j -> j = i \/ j = vopp i).
  { intros j [J1 J2] [_ J3]. pose proof (vcross_perp_parallel j _ _ J2 J3) as Z. fold c in Z.
    assert (Zi : vcross j i = (0,0,0)).
    { unfold i. transitivity (vscale (/ vnorm c) (vcross j c)).
      - clear. dvec. unfold vcross, vscale. apply pair3_eq; ring.
      - rewrite Z. unfold vscale. apply pair3_eq; ring. }
    pose proof (lagrange j i) as L. rewrite Zi in L. unfold is_unit in J1, Hu. rewrite J1, Hu in L.
    unfold vdot at 1 in L. assert (D : vdot j i = 1 \/ vdot j i = -1).
    { assert ((vdot j i - 1) * (vdot j i + 1) = 0) as Q by lra. apply Rmult_integral in Q. lra. }
    destruct D as [D|D].
    - left. now apply unit_dot_eq1.
    - right. apply unit_dot_eq1; [assumption| |].
      + rewrite <- Hu. clear. dvec. unfold vdot, vopp. ring.
      + transitivity (- vdot j i); [clear; dvec; unfold vdot, vopp; ring|lra]. }
  destruct i as [[i1 i2] i3] eqn:Ei. clear E.
  destruct p1 as [[a1 a2] a3], p2 as [[b1 b2] b3], p3 as [[d1 d2] d3], p4 as [[f1 f2] f3].
  destruct (Rlt_dec _ 0) as [L|L]; eexists; (split; [reflexivity|]); repeat split.
  - unfold is_unit. transitivity (vdot (i1, i2, i3) (i1, i2, i3)); [unfold vdot; ring|exact Hu].
  - transitivity (- vdot (i1, i2, i3) (vcross (a1, a2, a3) (b1, b2, b3))); [unfold vdot, vcross; ring|rewrite O1; ring].
  - unfold is_unit. transitivity (vdot (i1, i2, i3) (i1, i2, i3)); [unfold vdot; ring|exact Hu].
  - transitivity (- vdot (i1, i2, i3) (vcross (d1, d2, d3) (f1, f2, f3))); [unfold vdot, vcross; ring|rewrite O2; ring].
  - unfold dot3 in L. unfold vdot, vadd. lra.
  - intros j J1 J2. destruct (U j J1 J2) as [->| ->]; [right|left]; unfold vopp; apply pair3_eq; ring.
  - exact Hu.
  - exact O1.
  - exact Hu.
  - exact O2.
  - unfold dot3 in L. unfold vdot, vadd. lra.
  - exact U.
Qed.

(** round trips *)
Lemma g2n_normal lat lon deg : geodetic2nvector lat lon deg = unit_normal (as_rad deg lat) (as_rad deg lon).
Proof. rewrite (as_rad_rad_in deg lat), (as_rad_rad_in deg lon). reflexivity. Qed.
Lemma g2n_n2g n deg : is_unit n ->
  let '(lat, lon) := nvector2geodetic n deg in geodetic2nvector lat lon deg = n.
Proof.
  destruct n as [[n1 n2] n3]. unfold is_unit, vdot. intros Hu. unfold nvector2geodetic, geodetic2nvector.
  rewrite !rad_in_deg_out.
  assert (B : -1 <= n3 <= 1) by nra.
  assert (E : cos (asin n3) = hypot n1 n2).
  { rewrite cos_asin by assumption. unfold hypot. f_equal. unfold Rsqr. nra. }
  rewrite E, sin_asin by assumption.
  apply pair3_eq; [apply hypot_cos_atan2|apply hypot_sin_atan2|reflexivity].
Qed.
Lemma n2g_g2n lat lon deg : - quarter deg < lat < quarter deg -> - half deg < lon <= half deg ->
  nvector2geodetic (geodetic2nvector lat lon deg) deg = (lat, lon).
Proof.
  intros Hl Hn. apply quarter_rad in Hl. apply half_rad in Hn. rewrite as_rad_rad_in in *.
  unfold nvector2geodetic, geodetic2nvector.
  rewrite asin_sin by lra. rewrite atan2_polar; [now rewrite !deg_out_rad_in| |assumption].
  apply cos_gt_0; lra.
Qed.
Lemma n2g_range n deg : let '(lat, lon) := nvector2geodetic n deg in
  - quarter deg <= lat <= quarter deg /\ - half deg < lon <= half deg.
Proof.
  destruct n as [[n1 n2] n3]. unfold nvector2geodetic.
  pose proof (asin_bound n3). pose proof (atan2_range n2 n1).
  rewrite <- deg_out_mquarter, <- deg_out_quarter, <- deg_out_half, <- deg_out_opp.
  repeat split; try (apply deg_out_le; lra). apply deg_out_lt; lra.
Qed.
Lemma g2e_of_nvec lat lon h ell deg lat' lon' :
  geodetic2nvector lat lon deg = geodetic2nvector lat' lon' deg ->
  - quarter deg <= lat <= quarter deg -> - quarter deg <= lat' <= quarter deg ->
  geodetic2ecef lat lon h ell deg = geodetic2ecef lat' lon' h ell deg.
Proof.
  unfold geodetic2nvector, geodetic2ecef. intros E Hl Hl'.
  injection E as E1 E2 E3.
  assert (C : forall x, - quarter deg <= x <= quarter deg -> 0 <= cos (rad_in deg x)).
  { intros x Hx. apply cos_ge_0.
    - apply Rle_trans with (rad_in deg (- quarter deg)); [rewrite rad_in_mquarter; lra|apply rad_in_le; lra].
    - rewrite <- (rad_in_quarter deg). apply rad_in_le; lra. }
  pose proof (C _ Hl) as C1. pose proof (C _ Hl') as C2.
  assert (Ec : cos (rad_in deg lat) = cos (rad_in deg lat')).
  { pose proof (sc1 (rad_in deg lat)). pose proof (sc1 (rad_in deg lat')). rewrite E3 in H. nra. }
  rewrite E3, Ec in *. apply pair3_eq; [| |reflexivity].
  - rewrite Rmult_assoc, E1. ring.
  - rewrite Rmult_assoc, E2. ring.
Qed.

(** anglesep *)
Lemma hav_dot lon0 lat0 lon1 lat1 :
  haversine (lat0 - lat1) + cos lat0 * cos lat1 * haversine (lon0 - lon1)
  = (1 - vdot (unit_normal lat0 lon0) (unit_normal lat1 lon1)) / 2.
Proof. unfold haversine, unit_normal, vdot. rewrite !cos_minus. field. Qed.
Lemma half_angle d : -1 <= d <= 1 -> 2 * asin (sqrt ((1 - d) / 2)) = acos d.
Proof.
  intros Hd. pose proof (acos_bound d) as Hb. set (t := acos d) in *.
  assert (Hc : cos t = d) by now apply cos_acos.
  assert (E : sqrt ((1 - d) / 2) = sin (t / 2)).
  { apply sqrt_uniq; [apply sin_ge_0; lra|]. rewrite <- Hc.
    replace (cos t) with (cos (2 * (t/2))) by (f_equal; field). rewrite cos_2a_sin. field. }
  rewrite E, asin_sin by lra. field.
Qed.
Lemma anglesep_angle lon0 lat0 lon1 lat1 deg :
  anglesep_meeus lon0 lat0 lon1 lat1 deg
  = deg_out deg (unit_angle (unit_normal (as_rad deg lat0) (as_rad deg lon0))
                            (unit_normal (as_rad deg lat1) (as_rad deg lon1))).
Proof.
  unfold anglesep_meeus. rewrite hav_dot.
  rewrite (as_rad_rad_in deg lat0), (as_rad_rad_in deg lon0), (as_rad_rad_in deg lat1), (as_rad_rad_in deg lon1).
  f_equal. apply half_angle, unit_dot_range; apply unit_normal_unit.
Qed.
