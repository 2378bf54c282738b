(** vreckon against the true geodesic. *)
From Coq Require Import Reals Lra Lia Psatz.
From Coquelicot Require Import Coquelicot.
From Verif Require Import PyMath L_PyMath M_vincenty Spec Spec_geodesic L_karney3 L_series1 L_series3 L_vincenty L_vincenty2 L_vincenty3 L_vincenty4 L_geodesic4 L_geodesic7 L_vin1.
Open Scope R_scope.

Lemma reduced_reduces f phi : f < 1 -> 0 < cos phi -> reduces f phi (reduced_lat f phi).
Proof.
  intros Hf Hc. pose proof (reduced_cos_pos f phi) as HU. exists (cos phi / cos (reduced_lat f phi)). split; [|split].
  - apply Rdiv_lt_0_compat; assumption.
  - rewrite reduced_tan. unfold tan. field. lra.
  - field. lra.
Qed.
(** Some azimuth describes the direction at the end of an arc of a great circle. *)
Lemma tangent_exists U l az sg p2 l2 : L_vincenty4.gc_move U l az sg = unit_normal p2 l2 -> exists az2, gc_tangent U l az sg = heading_vector p2 l2 az2.
Proof.
  intros M. set (T := gc_tangent U l az sg). set (P := L_vincenty4.gc_move U l az sg) in *.
  pose proof (sc1 U) as SU. pose proof (sc1 l) as SL. pose proof (sc1 az) as SA. pose proof (sc1 sg) as SS.
  assert (SU' : sin U ^ 2 = 1 - cos U ^ 2) by nra. assert (SL' : sin l ^ 2 = 1 - cos l ^ 2) by nra. assert (SA' : sin az ^ 2 = 1 - cos az ^ 2) by nra. assert (SS' : sin sg ^ 2 = 1 - cos sg ^ 2) by nra.
  assert (PT : vdot T P = 0) by (unfold T, P, gc_tangent, L_vincenty4.gc_move, unit_normal, north_axis, east_axis; cbn [vadd vscale vdot]; ring [SU' SL' SA' SS']).
  assert (TT : vdot T T = 1) by (unfold T, gc_tangent, unit_normal, north_axis, east_axis; cbn [vadd vscale vdot]; ring [SU' SL' SA' SS']).
  rewrite M in PT. pose proof (frame_expand p2 l2 T) as E. rewrite PT in E. set (n := vdot T (north_axis p2 l2)) in *. set (e := vdot T (east_axis p2 l2)) in *.
  assert (N1 : n ^ 2 + e ^ 2 = 1).
  { assert (n ^ 2 + e ^ 2 + vdot T (unit_normal p2 l2) ^ 2 = vdot T T) as Q; [|rewrite PT, TT in Q; lra]. clear. unfold n, e. clear n e. destruct T as [[x y] z]. unfold unit_normal, north_axis, east_axis. cbn [vdot].
    pose proof (sc1 p2) as A. pose proof (sc1 l2) as B. assert (A' : sin p2 ^ 2 = 1 - cos p2 ^ 2) by nra. assert (B' : sin l2 ^ 2 = 1 - cos l2 ^ 2) by nra. ring [A' B']. }
  exists (atan2 e n). assert (H : hypot n e = 1) by (apply hypot_uniq; [lra|lra]).
  pose proof (hypot_cos_atan2 e n) as C. pose proof (hypot_sin_atan2 e n) as S. rewrite H, Rmult_1_l in C, S.
  unfold heading_vector. rewrite C, S, E. destruct (unit_normal p2 l2) as [[u v] w], (north_axis p2 l2) as [[x y] z], (east_axis p2 l2) as [[x' y'] z'].
  cbn [vadd vscale]. apply f_equal2; [apply f_equal2|]; ring.
Qed.
Lemma exact_point a f U l az phi ca0 t1 sg p2 l2 phi2 c t : 0 < a -> 0 <= f < 1 -> unit_geodesic a (a * (1 - f)) c t ->
  c 0 = surface_point a (a * (1 - f)) phi l -> t 0 = heading_vector phi l az -> reduces f phi U -> sin U = ca0 * sin t1 -> cos az * cos U = ca0 * cos t1 ->
  reduces f phi2 p2 -> L_vincenty4.gc_move U l az sg = unit_normal p2 l2 ->
  c (arc_dist a f ca0 t1 sg) = surface_point a (a * (1 - f)) phi2 (l2 + arc_turn f U az ca0 t1 sg).
Proof.
  intros Ha F G G0 G1 R1 S1 S2 R2 M. destruct (tangent_exists U l az sg p2 l2 M) as (az2 & T).
  exact (proj1 (exact_end a f U l az phi ca0 t1 sg p2 l2 az2 phi2 c t Ha F G G0 G1 R1 S1 S2 R2 M T)).
Qed.
(** Vincenty's sigma1 and alpha. *)
Lemma vin_start f lat az : let U := reduced_lat f lat in let sA := cos U * sin az in
  let ca0 := sqrt (1 - sA * sA) in let t1 := atan2 ((1 - f) * tan lat) (cos az) in
  0 <= 1 - sA * sA <= 1 /\ ca0 ^ 2 = 1 - sA * sA /\ sin U = ca0 * sin t1 /\ cos az * cos U = ca0 * cos t1.
Proof.
  intros U sA ca0 t1. pose proof (reduced_cos_pos f lat) as HU. fold U in HU. pose proof (sc1 U) as SU. pose proof (sc1 az) as SA.
  assert (P : 1 - sA * sA = (cos U * cos az) ^ 2 + sin U ^ 2) by (unfold sA; nra).
  assert (R0 : 0 <= 1 - sA * sA <= 1). { split; [rewrite P; apply Rplus_le_le_0_compat; apply pow2_ge_0|]. pose proof (Rle_0_sqr sA) as Q. unfold Rsqr in Q. lra. }
  assert (C2 : ca0 ^ 2 = 1 - sA * sA) by (unfold ca0; rewrite <- Rsqr_pow2; apply Rsqr_sqrt; lra).
  split; [exact R0|]. split; [exact C2|]. set (T := (1 - f) * tan lat) in *. assert (ST : sin U = T * cos U) by apply reduced_tan.
  assert (H : hypot (cos az) T * cos U = ca0).
  { apply Rsqr_inj; [apply Rmult_le_pos; [apply hypot_nonneg|lra]|apply sqrt_pos|]. rewrite !Rsqr_pow2, C2, P, Rpow_mult_distr. rewrite (hypot_pow2 (cos az) T), ST. ring. }
  pose proof (hypot_cos_atan2 T (cos az)) as C. pose proof (hypot_sin_atan2 T (cos az)) as S. fold t1 in C, S. rewrite <- H. split.
  - rewrite ST. transitivity (hypot (cos az) T * sin t1 * cos U); [rewrite S|]; ring.
  - transitivity (hypot (cos az) T * cos t1 * cos U); [rewrite C|]; ring.
Qed.
(** The end point formulas are spherical trigonometry on the auxiliary sphere. *)
Lemma vreck_end_sphere' f U lon az s0 sA c0 A B sP s : f < 1 -> sA = cos U * sin az ->
  let k := mkVreck (sin az) (cos az) (cos U) (sin U) s0 sA c0 A B in
  let C := vC f c0 in let m := cos (2 * s0 + sP) in
  exists p2 om, snd (vreck_end f lon k sP s) = py_mod (lon + (om - f * (1 - C) * sA * (s + C * sin sP * (m + C * cos sP * (-1 + 2 * m * m))))) tau /\
    reduces f (fst (vreck_end f lon k sP s)) p2 /\ L_vincenty4.gc_move U lon az sP = unit_normal p2 (lon + om).
Proof.
  intros Hf HA k C m. unfold vreck_end, k. cbn [r_sinAlpha1 r_cosAlpha1 r_cosU1 r_sinU1 r_sigma1 r_sinAlpha r_cosSqAlpha]. cbv zeta. cbn [fst snd]. fold m.
  change (f / 16 * c0 * (4 + f * (4 - 3 * c0))) with C. subst sA. destruct (gc_identity U az sP) as [I1 I2].
  set (z := sin U * cos sP + cos U * sin sP * cos az) in *. set (w := cos U * sin az * (cos U * sin az) + (sin U * sin sP - cos U * cos sP * cos az) ^ 2) in *.
  assert (W0 : 0 <= w) by (unfold w; apply Rplus_le_le_0_compat; [apply Rle_0_sqr|apply pow2_ge_0]).
  pose proof (sqrt_pos w) as SP. pose proof (pow2_sqrt w W0) as SQ.
  assert (H1 : hypot (sqrt w) z = 1) by (apply hypot_uniq; [lra|rewrite SQ; lra]).
  pose proof (hypot_cos_atan2 z (sqrt w)) as C1. pose proof (hypot_sin_atan2 z (sqrt w)) as S1. rewrite H1, Rmult_1_l in C1, S1.
  set (y := sin sP * sin az) in *. set (x := cos U * cos sP - sin U * sin sP * cos az) in *.
  assert (H2 : hypot x y = sqrt w) by (apply hypot_uniq; [exact SP|rewrite <- Rsqr_pow2 in SQ; unfold Rsqr in SQ; rewrite SQ; rewrite <- I2; ring]).
  pose proof (hypot_cos_atan2 y x) as C2. pose proof (hypot_sin_atan2 y x) as S2. rewrite H2 in C2, S2.
  exists (atan2 z (sqrt w)), (atan2 y x). split; [reflexivity|]. split.
  - set (p := atan2 z ((1 - f) * sqrt w)). pose proof (hypot_cos_atan2 z ((1 - f) * sqrt w)) as PC. pose proof (hypot_sin_atan2 z ((1 - f) * sqrt w)) as PS. fold p in PC, PS.
    assert (HP : 0 < hypot ((1 - f) * sqrt w) z).
    { pose proof (hypot_nonneg ((1 - f) * sqrt w) z) as Q. destruct Q as [Q|Q]; [exact Q|]. exfalso. rewrite <- Q in PC, PS. rewrite Rmult_0_l in PC, PS.
      assert (sqrt w = 0) as Z by (symmetry in PC; apply Rmult_integral in PC; destruct PC; lra). rewrite Z in SQ. rewrite <- PS in I1. simpl in SQ, I1. lra. }
    set (h := hypot ((1 - f) * sqrt w) z) in *. exists ((1 - f) / h). split; [apply Rdiv_lt_0_compat; lra|]. rewrite C1, S1. split.
    + rewrite <- PS. field. lra.
    + apply Rmult_eq_reg_r with h; [|lra]. replace (sqrt w * ((1 - f) / h) * h) with ((1 - f) * sqrt w) by (field; lra). rewrite <- PC. ring.
  - unfold unit_normal. rewrite C1, S1, cos_plus, sin_plus.
    replace (sqrt w * (cos lon * cos (atan2 y x) - sin lon * sin (atan2 y x))) with (cos lon * (sqrt w * cos (atan2 y x)) - sin lon * (sqrt w * sin (atan2 y x))) by ring.
    replace (sqrt w * (sin lon * cos (atan2 y x) + cos lon * sin (atan2 y x))) with (sin lon * (sqrt w * cos (atan2 y x)) + cos lon * (sqrt w * sin (atan2 y x))) by ring.
    rewrite C2, S2. unfold gc_move. cbn. unfold x, y, z. apply f_equal2; [apply f_equal2|]; ring.
Qed.
Lemma surface_mod a b phi l : surface_point a b phi (py_mod l tau) = surface_point a b phi l.
Proof. unfold surface_point. now rewrite cos_py_mod, sin_py_mod. Qed.
(** The second eccentricity squared. *)
Definition ep2 (f : R) : R := f * (2 - f) / (1 - f) ^ 2.
Lemma ep2_range f : 0 <= f <= 1 / 100 -> 0 <= ep2 f <= 1 / 40.
Proof.
  intros F. unfold ep2. assert (0 < (1 - f) ^ 2) by (apply pow_lt; lra). split; [apply Rmult_le_pos; [nra|left; now apply Rinv_0_lt_compat]|].
  apply Rmult_le_reg_r with ((1 - f) ^ 2); [assumption|]. unfold Rdiv at 1. rewrite Rmult_assoc, Rinv_l by lra. nra.
Qed.
(** ** One call of vreckon, whatever the loop did: the error is the residual of the loop
    plus the truncation of the two series. *)
Theorem vreck_accuracy a f lat lon az rng c t sP s : 0 < a -> 0 <= f <= 1 / 100 -> 0 < cos lat ->
  let b := a * (1 - f) in let k := vreck_init a b f lat az in
  unit_geodesic a b c t -> c 0 = surface_point a b lat lon -> t 0 = heading_vector lat lon az ->
  s = vreck_next k (rng / (b * r_A k)) sP -> 1 <= r_A k ->
  vdist3 (surface_point a b (fst (vreck_end f lon k sP s)) (snd (vreck_end f lon k sP s))) (c rng)
    <= b * (r_A k * Rabs (s - sP) + derr (ep2 f) * Rabs sP) + a * (f * (Rabs (s - sP) + lerr f * Rabs sP)).
Proof.
  intros Ha F Hc b k G G0 G1 Es HA1. pose proof (vin_start f lat az) as VS. cbv zeta in VS.
  assert (KE : k = vreck_init a b f lat az) by reflexivity. rewrite vreck_init_eq in KE. cbv zeta in KE.
  set (U := reduced_lat f lat) in *. set (sA := cos U * sin az) in *. set (ca0 := sqrt (1 - sA * sA)) in *. set (t1 := atan2 ((1 - f) * tan lat) (cos az)) in *.
  destruct VS as (R0 & C2 & S1 & S2).
  assert (Hb : 0 < b) by (unfold b; apply Rmult_lt_0_compat; lra). assert (Hba : b <= a) by (unfold b; nra).
  set (k2 := ca0 ^ 2 * (f * (2 - f) / (1 - f) ^ 2)).
  assert (K2 : (1 - sA * sA) * (a ^ 2 - b ^ 2) / b ^ 2 = k2) by (unfold k2; rewrite C2; unfold b; field; lra). rewrite K2 in KE.
  pose proof (ep2_range f F) as EP. assert (Hk : 0 <= k2 <= ep2 f) by (unfold k2; fold (ep2 f); rewrite C2; split; [apply Rmult_le_pos; lra|nra]).
  assert (EA : r_A k = vin_A k2) by (rewrite KE; reflexivity). assert (EB : r_B k = vin_B k2) by (rewrite KE; reflexivity). assert (ES : r_sigma1 k = t1) by (rewrite KE; reflexivity).
  assert (D1 : arc_dist a f ca0 t1 sP = b * (dexact k2 (t1 + sP) - dexact k2 t1)) by reflexivity.
  assert (RNG : rng = b * (vser k2 (t1 + sP) - vser k2 t1) + b * r_A k * (s - sP)).
  { rewrite vser_diff, Es. unfold vreck_next. rewrite EB, ES. rewrite <- EA. field. lra. }
  assert (DD : Rabs (arc_dist a f ca0 t1 sP - rng) <= b * (r_A k * Rabs (s - sP) + derr (ep2 f) * Rabs sP)).
  { pose proof (vin_distance k2 ltac:(lra) t1 (t1 + sP)) as V. replace (t1 + sP - t1) with sP in V by ring. rewrite D1, RNG.
    replace (b * (dexact k2 (t1 + sP) - dexact k2 t1) - (b * (vser k2 (t1 + sP) - vser k2 t1) + b * r_A k * (s - sP)))
      with (- (b * ((vser k2 (t1 + sP) - vser k2 t1 - (dexact k2 (t1 + sP) - dexact k2 t1)) + r_A k * (s - sP)))) by ring.
    rewrite Rabs_Ropp, Rabs_mult, (Rabs_right b) by lra. apply Rmult_le_compat_l; [lra|]. eapply Rle_trans; [apply Rabs_triang|]. rewrite Rabs_mult, (Rabs_right (r_A k)) by lra.
    assert (derr k2 * Rabs sP <= derr (ep2 f) * Rabs sP) by (apply Rmult_le_compat_r; [apply Rabs_pos|now apply derr_incr]). lra. }
  destruct (vreck_end_sphere' f U lon az t1 sA (1 - sA * sA) (vin_A k2) (vin_B k2) sP s ltac:(lra) eq_refl) as (p2 & om & E1 & E2 & E3). cbv zeta in E1, E2, E3. rewrite <- KE in E1, E2.
  set (phi2 := fst (vreck_end f lon k sP s)) in *. set (lon2 := snd (vreck_end f lon k sP s)) in *.
  pose proof (exact_point a f U lon az lat ca0 t1 sP p2 (lon + om) phi2 c t Ha ltac:(lra) G G0 G1 (reduced_reduces f lat ltac:(lra) Hc) S1 S2 E2 E3) as X. fold b in X.
  apply Rle_trans with (vdist3 (surface_point a b phi2 lon2) (c (arc_dist a f ca0 t1 sP)) + vdist3 (c (arc_dist a f ca0 t1 sP)) (c rng)); [apply vdist3_triangle|].
  rewrite Rplus_comm. apply Rplus_le_compat; [eapply Rle_trans; [apply (pos_lip a b c t G)|exact DD]|].
  rewrite X, E1, surface_mod. eapply Rle_trans; [apply surface_close; lra|]. apply Rmult_le_compat_l; [lra|].
  unfold arc_turn. fold k2. pose proof (vin_longitude f (1 - sA * sA) F R0 t1 (t1 + sP)) as V. cbv zeta in V. rewrite <- C2 in V at 3 4. fold k2 in V.
  rewrite vlon_diff in V. replace (t1 + sP - t1) with sP in V by ring. set (C := vC f (1 - sA * sA)) in *. set (m := cos (2 * t1 + sP)) in *. cbv zeta in V.
  set (D := lexact f k2 (t1 + sP) - lexact f k2 t1) in *. replace (sin az * cos U) with sA by (unfold sA; ring).
  match goal with |- Rabs ?x <= _ => replace x with (- (f * sA * ((1 - C) * (s - sP) + ((1 - C) * (sP + C * sin sP * (m + C * cos sP * (-1 + 2 * m ^ 2))) - D)))) by ring end.
  assert (A1 : Rabs sA <= 1) by (unfold sA; replace 1 with (1 * 1) by ring; apply Rabs_mul_le; [apply abs_cos|apply abs_sin]).
  assert (C01 : 0 <= C <= 1).
  { unfold C, vC. set (x := 1 - sA * sA) in *. assert (0 <= f * x <= f) by nra. assert (0 <= f * (4 - 3 * x) <= 4 * f) by nra. replace (f / 16 * x * (4 + f * (4 - 3 * x))) with (f * x * (4 + f * (4 - 3 * x)) / 16) by field. nra. }
  rewrite Rabs_Ropp, !Rabs_mult, (Rabs_right f) by lra. rewrite Rmult_assoc. apply Rmult_le_compat_l; [lra|].
  rewrite <- (Rmult_1_l (Rabs (s - sP) + lerr f * Rabs sP)). apply Rmult_le_compat; [apply Rabs_pos|apply Rabs_pos|exact A1|].
  eapply Rle_trans; [apply Rabs_triang|]. apply Rplus_le_compat; [|exact V]. rewrite Rabs_mult, (Rabs_right (1 - C)) by lra. pose proof (Rabs_pos (s - sP)). nra.
Qed.
