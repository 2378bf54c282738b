(** Lemmas on radii of curvature. *)
From Coq Require Import Lia Psatz.
From Coquelicot Require Import Coquelicot.
From Verif Require Import PyMath L_PyMath M_ellipsoid M_ecef M_rcurve Spec L_ell L_frames L_aer.
Open Scope R_scope.

(** W(t) = sqrt((a cos t)^2 + (b sin t)^2) *)
Lemma W_sq a b t : hypot (a * cos t) (b * sin t) ^ 2 = (a * cos t) ^ 2 + (b * sin t) ^ 2.
Proof. apply hypot_pow2. Qed.

Lemma e2a2 a b e2 : 0 < a -> e2 = 1 - b ^ 2 / a ^ 2 -> a ^ 2 * e2 = a ^ 2 - b ^ 2.
Proof. intros Ha ->. field. lra. Qed.

Lemma f2_W a b e s c : 0 < a -> e ^ 2 = 1 - b ^ 2 / a ^ 2 -> s * s + c * c = 1 ->
  1 - (e * s) ^ 2 = ((a * c) ^ 2 + (b * s) ^ 2) / a ^ 2.
Proof.
  intros Ha He Hs. replace ((e * s) ^ 2) with (e ^ 2 * (s * s)) by ring. rewrite He.
  replace (1 - (1 - b^2/a^2) * (s*s)) with ((1 - s*s) + b^2/a^2 * (s*s)) by ring.
  replace (1 - s*s) with (c*c) by lra. field. lra.
Qed.

Section S.
Variables (ell : option Ellipsoid) (H : ell_ok ell).
Let a := ell_a ell.
Let b := ell_b ell.
Let Hb : 0 < b. Proof. apply (ell_pos ell H). Qed.
Let Hab : b <= a. Proof. apply (ell_pos ell H). Qed.
Let Ha : 0 < a. Proof. lra. Qed.

Lemma transverse_W lat deg :
  transverse lat ell deg = a ^ 2 / hypot (a * cos (rad_in deg lat)) (b * sin (rad_in deg lat)).
Proof.
  unfold transverse. rewrite resolve_a. fold a.
  pose proof (acbs_pos a b (rad_in deg lat) Hb Hab) as HW. set (t := rad_in deg lat) in *.
  pose proof (sc1 t) as Hsc.
  rewrite (f2_W a b _ _ _ Ha (ell_e2 ell H) Hsc).
  rewrite <- W_sq.
  replace (sqrt (hypot (a * cos t) (b * sin t) ^ 2 / a ^ 2)) with (hypot (a * cos t) (b * sin t) / a).
  - field. split; lra.
  - symmetry. apply sqrt_uniq.
    + apply Rle_mult_inv_pos; lra.
    + field. lra.
Qed.

Lemma meridian_W lat deg :
  meridian lat ell deg
  = a ^ 2 * b ^ 2 / hypot (a * cos (rad_in deg lat)) (b * sin (rad_in deg lat)) ^ 3.
Proof.
  unfold meridian. rewrite resolve_a. fold a.
  pose proof (acbs_pos a b (rad_in deg lat) Hb Hab) as HW. set (t := rad_in deg lat) in *.
  pose proof (sc1 t) as Hsc.
  rewrite (f2_W a b _ _ _ Ha (ell_e2 ell H) Hsc). rewrite (ell_e2 ell H). fold a b.
  rewrite <- W_sq. set (W := hypot _ _) in *.
  replace (sqrt ((W ^ 2 / a ^ 2) ^ 3)) with (W ^ 3 / a ^ 3).
  - field. split; lra.
  - symmetry. apply sqrt_uniq.
    + apply Rle_mult_inv_pos; [|apply pow_lt; lra]. apply pow_le; lra.
    + field. lra.
Qed.

Lemma transverse_pos lat deg : 0 < transverse lat ell deg.
Proof.
  rewrite transverse_W. apply Rdiv_lt_0_compat; [apply pow_lt; apply Ha|].
  apply acbs_pos; [apply Hb|apply Hab].
Qed.
Lemma meridian_pos lat deg : 0 < meridian lat ell deg.
Proof.
  rewrite meridian_W. apply Rdiv_lt_0_compat.
  - apply Rmult_lt_0_compat; apply pow_lt; [apply Ha|apply Hb].
  - apply pow_lt. apply acbs_pos; [apply Hb|apply Hab].
Qed.

(** b <= W <= a *)
Lemma W_bounds t : b <= hypot (a * cos t) (b * sin t) <= a.
Proof.
  pose proof (sc1 t) as Hsc. pose proof (acbs_pos a b t Hb Hab) as HW.
  pose proof (W_sq a b t) as HW2. set (W := hypot _ _) in *.
  assert (E1 : W ^ 2 = b ^ 2 + (a^2 - b^2) * (cos t * cos t)).
  { rewrite HW2. replace ((b * sin t)^2) with (b^2 * (sin t * sin t)) by ring. rewrite sin_sq. ring. }
  assert (0 <= cos t * cos t <= 1) by (pose proof (Rle_0_sqr (sin t)); pose proof (Rle_0_sqr (cos t)); unfold Rsqr in *; lra).
  assert (0 <= a ^ 2 - b ^ 2) by nra.
  split; apply Rnot_lt_le; intros Hlt; nra.
Qed.

Lemma meridian_transverse_ratio lat deg :
  let W := hypot (a * cos (rad_in deg lat)) (b * sin (rad_in deg lat)) in
  meridian lat ell deg = transverse lat ell deg * (b ^ 2 / W ^ 2).
Proof.
  cbv zeta. rewrite meridian_W, transverse_W.
  pose proof (acbs_pos a b (rad_in deg lat) Hb Hab) as HW. set (W := hypot _ _) in *.
  field. lra.
Qed.

Lemma meridian_le_transverse lat deg : meridian lat ell deg <= transverse lat ell deg.
Proof.
  rewrite meridian_transverse_ratio. pose proof (transverse_pos lat deg).
  destruct (W_bounds (rad_in deg lat)) as [B1 _]. set (W := hypot _ _) in *.
  assert (b ^ 2 / W ^ 2 <= 1).
  { apply Rmult_le_reg_r with (W ^ 2); [nra|].
    replace (b^2/W^2*W^2) with (b^2) by (field; lra). nra. }
  assert (0 < b ^ 2 / W ^ 2) by (apply Rdiv_lt_0_compat; nra). nra.
Qed.
Lemma meridian_lower lat deg : b ^ 2 / a <= meridian lat ell deg.
Proof.
  rewrite meridian_W. destruct (W_bounds (rad_in deg lat)) as [B1 B2]. set (W := hypot _ _) in *.
  apply Rmult_le_reg_r with (a * W ^ 3); [apply Rmult_lt_0_compat; [lra|apply pow_lt; lra]|].
  replace (b^2/a*(a*W^3)) with (b^2*W^3) by (field; lra).
  replace (a^2*b^2/W^3*(a*W^3)) with (b^2*a^3) by (field; lra).
  apply Rmult_le_compat_l; [nra|]. apply pow_incr. lra.
Qed.
Lemma transverse_upper lat deg : transverse lat ell deg <= a ^ 2 / b.
Proof.
  rewrite transverse_W. destruct (W_bounds (rad_in deg lat)) as [B1 B2]. set (W := hypot _ _) in *.
  apply Rmult_le_compat_l; [nra|]. apply Rinv_le_contravar; lra.
Qed.
Lemma transverse_lower lat deg : a <= transverse lat ell deg.
Proof.
  rewrite transverse_W. destruct (W_bounds (rad_in deg lat)) as [B1 B2]. set (W := hypot _ _) in *.
  apply Rmult_le_reg_r with W; [lra|]. replace (a^2/W*W) with (a*a) by (field; lra). nra.
Qed.
Lemma meridian_upper lat deg : meridian lat ell deg <= a ^ 2 / b.
Proof. pose proof (meridian_le_transverse lat deg); pose proof (transverse_upper lat deg); lra. Qed.

Lemma W_eq_b_iff t : b < a -> hypot (a * cos t) (b * sin t) = b -> cos t = 0.
Proof.
  intros Hlt E. pose proof (W_sq a b t) as HW2. rewrite E in HW2.
  replace ((b * sin t)^2) with (b^2 * (sin t * sin t)) in HW2 by ring. rewrite sin_sq in HW2.
  assert ((a^2-b^2) * (cos t * cos t) = 0) by lra.
  apply Rmult_integral in H0. destruct H0; [nra|]. nra.
Qed.
Lemma W_eq_a_iff t : b < a -> hypot (a * cos t) (b * sin t) = a -> sin t = 0.
Proof.
  intros Hlt E. pose proof (W_sq a b t) as HW2. rewrite E in HW2.
  pose proof (sc1 t). replace ((a * cos t)^2) with (a^2 * (cos t * cos t)) in HW2 by ring.
  replace (cos t * cos t) with (1 - sin t * sin t) in HW2 by lra.
  assert ((a^2-b^2) * (sin t * sin t) = 0) by lra.
  apply Rmult_integral in H1. destruct H1; [nra|]. nra.
Qed.
Lemma meridian_eq_transverse lat deg : b < a ->
  meridian lat ell deg = transverse lat ell deg <-> cos (rad_in deg lat) = 0.
Proof.
  intros Hlt. rewrite meridian_transverse_ratio. pose proof (transverse_pos lat deg) as HT.
  destruct (W_bounds (rad_in deg lat)) as [B1 B2].
  split.
  - intros E. apply (W_eq_b_iff _ Hlt). set (W := hypot _ _) in *.
    assert (E1 : b ^ 2 / W ^ 2 = 1) by (apply Rmult_eq_reg_l with (transverse lat ell deg); lra).
    assert (b ^ 2 = W ^ 2) by (rewrite <- (Rmult_1_l (W^2)), <- E1; field; lra). nra.
  - intros E. rewrite E. replace (hypot (a * 0) (b * sin (rad_in deg lat))) with b.
    + field. lra.
    + symmetry. apply hypot_uniq; [lra|]. pose proof (sc1 (rad_in deg lat)) as Hs. rewrite E in Hs.
      replace ((a*0)^2 + (b*sin (rad_in deg lat))^2) with (b*b*(sin (rad_in deg lat) * sin (rad_in deg lat))) by ring.
      replace (sin (rad_in deg lat) * sin (rad_in deg lat)) with 1 by lra. ring.
Qed.

(** embedding *)
Lemma parallel_axis lat lon deg :
  - quarter deg <= lat <= quarter deg ->
  let '(x, y, _) := geodetic2ecef lat lon 0 ell deg in
  parallel lat ell deg = hypot x y.
Proof.
  intros Hl. unfold geodetic2ecef, parallel. rewrite resolve_a, resolve_b. fold a b.
  rewrite transverse_W. cbn [rad_in].
  assert (0 <= cos (rad_in deg lat)).
  { apply cos_ge_0.
    - apply Rle_trans with (rad_in deg (- quarter deg)).
      + rewrite rad_in_mquarter; lra.
      + apply rad_in_le; lra.
    - rewrite <- (rad_in_quarter deg). apply rad_in_le; lra. }
  pose proof (acbs_pos a b (rad_in deg lat) Hb Hab) as HW. set (t := rad_in deg lat) in *.
  set (W := hypot _ _) in *. set (l := rad_in deg lon).
  assert (0 < a ^ 2 / W) by (apply Rdiv_lt_0_compat; nra).
  rewrite Rplus_0_r, hypot_polar by nra. ring.
Qed.
Lemma geocentric_radius_norm lat lon deg :
  geocentric_radius lat ell deg = vnorm (geodetic2ecef lat lon 0 ell deg).
Proof.
  unfold geocentric_radius, geodetic2ecef, vnorm, vdot. f_equal.
  rewrite resolve_a, resolve_b. fold a b.
  pose proof (acbs_pos a b (rad_in deg lat) Hb Hab) as HW. set (t := rad_in deg lat) in *.
  rewrite <- (W_sq a b t). set (W := hypot _ _) in *. set (l := rad_in deg lon).
  transitivity ((a^2*cos t)^2 / W^2 * (cos l * cos l + sin l * sin l) + (b^2*sin t)^2 / W^2).
  - pose proof (sc1 l). replace (cos l * cos l + sin l * sin l) with 1 by lra. field. lra.
  - field. split; lra.
Qed.
(** the normal from the surface point reaches the polar axis after a length [transverse] *)
Lemma transverse_to_axis lat lon deg :
  exists z0, vsub (geodetic2ecef lat lon 0 ell deg)
    (vscale (transverse lat ell deg) (unit_normal (as_rad deg lat) (as_rad deg lon))) = (0, 0, z0).
Proof.
  rewrite (as_rad_rad_in deg lat), (as_rad_rad_in deg lon).
  eexists. unfold geodetic2ecef, vsub, vscale, unit_normal. rewrite transverse_W.
  rewrite resolve_a, resolve_b. fold a b.
  apply pair3_eq; [ring|ring|reflexivity].
Qed.

Lemma D_cosW t : is_derive (fun t => cos t / hypot (a * cos t) (b * sin t)) t
  (- (sin t * b ^ 2) / hypot (a * cos t) (b * sin t) ^ 3).
Proof.
  pose proof (acbs_pos a b t Hb Hab) as HW. pose proof (W_sq a b t) as HW2.
  unfold hypot in *. set (W := sqrt ((a * cos t) ^ 2 + (b * sin t) ^ 2)) in *.
  assert (HP : 0 < (a * cos t) ^ 2 + (b * sin t) ^ 2) by (rewrite <- HW2; apply pow_lt; lra).
  auto_derive.
  - repeat split.
    + replace (a * cos t * (a * cos t * 1) + b * sin t * (b * sin t * 1))
        with ((a * cos t) ^ 2 + (b * sin t) ^ 2) by ring. assumption.
    + replace (a * cos t * (a * cos t * 1) + b * sin t * (b * sin t * 1))
        with ((a * cos t) ^ 2 + (b * sin t) ^ 2) by ring. fold W. lra.
  - replace (a * cos t * (a * cos t * 1) + b * sin t * (b * sin t * 1))
        with ((a * cos t) ^ 2 + (b * sin t) ^ 2) by ring. fold W.
    apply Rmult_eq_reg_r with (W ^ 3); [|apply pow_nonzero; lra].
    transitivity (- sin t * W ^ 2 + cos t * (a ^ 2 * cos t * sin t - b ^ 2 * sin t * cos t)).
    + field. lra.
    + rewrite HW2. transitivity (- (sin t * b^2) * (sin t * sin t + cos t * cos t)); [ring|].
      rewrite sc1. field. lra.
Qed.
Lemma D_sinW t : is_derive (fun t => sin t / hypot (a * cos t) (b * sin t)) t
  (cos t * a ^ 2 / hypot (a * cos t) (b * sin t) ^ 3).
Proof.
  pose proof (acbs_pos a b t Hb Hab) as HW. pose proof (W_sq a b t) as HW2.
  unfold hypot in *. set (W := sqrt ((a * cos t) ^ 2 + (b * sin t) ^ 2)) in *.
  assert (HP : 0 < (a * cos t) ^ 2 + (b * sin t) ^ 2) by (rewrite <- HW2; apply pow_lt; lra).
  auto_derive.
  - repeat split.
    + replace (a * cos t * (a * cos t * 1) + b * sin t * (b * sin t * 1))
        with ((a * cos t) ^ 2 + (b * sin t) ^ 2) by ring. assumption.
    + replace (a * cos t * (a * cos t * 1) + b * sin t * (b * sin t * 1))
        with ((a * cos t) ^ 2 + (b * sin t) ^ 2) by ring. fold W. lra.
  - replace (a * cos t * (a * cos t * 1) + b * sin t * (b * sin t * 1))
        with ((a * cos t) ^ 2 + (b * sin t) ^ 2) by ring. fold W.
    apply Rmult_eq_reg_r with (W ^ 3); [|apply pow_nonzero; lra].
    transitivity (cos t * W ^ 2 + sin t * (a ^ 2 * cos t * sin t - b ^ 2 * sin t * cos t)).
    + field. lra.
    + rewrite HW2. transitivity (cos t * a^2 * (sin t * sin t + cos t * cos t)); [ring|].
      rewrite sc1. field. lra.
Qed.

Lemma lin2 (F G : R -> R) (g : R -> R) k A h x F' G' l :
  is_derive F x F' -> is_derive G x G' ->
  (forall t, g t = k * (A * F t + h * G t)) -> l = k * (A * F' + h * G') ->
  is_derive g x l.
Proof.
  intros HF HG Hg ->. apply is_derive_ext with (fun t => k * (A * F t + h * G t)).
  { intros t. symmetry. apply Hg. }
  apply is_derive_scal. apply (is_derive_plus (fun t => A * F t) (fun t => h * G t)).
  - now apply is_derive_scal.
  - now apply is_derive_scal.
Qed.
Lemma D_cos t : is_derive cos t (- sin t).
Proof. auto_derive; [trivial|ring]. Qed.
Lemma D_sin t : is_derive sin t (cos t).
Proof. auto_derive; [trivial|ring]. Qed.
Lemma D_lat phi lam h :
  let '(n1, n2, n3) := north_axis phi lam in
  is_derive (fun t => fst (fst (geodetic2ecef t lam h ell false))) phi
    ((meridian phi ell false + h) * n1) /\
  is_derive (fun t => snd (fst (geodetic2ecef t lam h ell false))) phi
    ((meridian phi ell false + h) * n2) /\
  is_derive (fun t => snd (geodetic2ecef t lam h ell false)) phi
    ((meridian phi ell false + h) * n3).
Proof.
  cbn [north_axis]. unfold geodetic2ecef. cbn [fst snd rad_in]. rewrite resolve_a, resolve_b. fold a b.
  rewrite meridian_W. cbn [rad_in].
  pose proof (acbs_pos a b phi Hb Hab) as HW.
  refine (conj _ (conj _ _)).
  - eapply (lin2 _ _ _ (cos lam) (a^2) h _ _ _ _ (D_cosW phi) (D_cos phi)).
    + intros t. pose proof (acbs_pos a b t Hb Hab). cbv beta. field. lra.
    + set (W := hypot _ _) in *. field. lra.
  - eapply (lin2 _ _ _ (sin lam) (a^2) h _ _ _ _ (D_cosW phi) (D_cos phi)).
    + intros t. pose proof (acbs_pos a b t Hb Hab). cbv beta. field. lra.
    + set (W := hypot _ _) in *. field. lra.
  - eapply (lin2 _ _ _ 1 (b^2) h _ _ _ _ (D_sinW phi) (D_sin phi)).
    + intros t. pose proof (acbs_pos a b t Hb Hab). cbv beta. field. split; lra.
    + set (W := hypot _ _) in *. field. lra.
Qed.
Lemma D_lon phi lam h :
  let '(e1, e2, e3) := east_axis phi lam in
  is_derive (fun t => fst (fst (geodetic2ecef phi t h ell false))) lam
    ((parallel phi ell false + h * cos phi) * e1) /\
  is_derive (fun t => snd (fst (geodetic2ecef phi t h ell false))) lam
    ((parallel phi ell false + h * cos phi) * e2) /\
  is_derive (fun t => snd (geodetic2ecef phi t h ell false)) lam
    ((parallel phi ell false + h * cos phi) * e3).
Proof.
  cbn [east_axis]. unfold geodetic2ecef, parallel. cbn [fst snd rad_in]. rewrite resolve_a, resolve_b.
  rewrite transverse_W. cbn [rad_in]. fold a b.
  set (N := a ^ 2 / hypot (a * cos phi) (b * sin phi)). set (c := cos phi). set (q := (b / a) ^ 2).
  set (s := sin phi). clearbody N c q s.
  refine (conj _ (conj _ _)); auto_derive; trivial; try ring.
Qed.
End S.
