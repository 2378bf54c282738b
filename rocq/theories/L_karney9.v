(** Karney: coincident points, the equator, geodesic_line, geodesic_area. *)
From Coq Require Import Lia Psatz.
From Verif Require Import PyMath L_PyMath M_ellipsoid M_time M_karney Spec L_karney L_karney2 L_karney3 L_karney4 L_karney5 L_karney6 L_karney7 L_karney8.
From Verif Require L_ecef L_nvector L_vincenty L_vincenty3 L_vincenty4 L_ell.
Open Scope R_scope.

Lemma rad0 : radians 0 = 0. Proof. unfold radians, Rdiv. ring. Qed.
Lemma reduced_pos g lat : let '(sb, cb) := reduced g lat in 0 < cb.
Proof.
  unfold reduced. destruct (sincosd lat) as [s c]. destruct (norm2 _ _) as [x y]. pose proof tiny_pos. pose proof (Rmax_l k_tiny y). lra.
Qed.
Lemma canon_coincident g A : dist_of (canon g A A 0) = 0.
Proof.
  unfold canon. pose proof (reduced_pos g A) as C. destruct (reduced g A) as [sb cb].
  assert (FX : sbet_fix sb cb sb cb = sb).
  { unfold sbet_fix. destruct (Rlt_dec cb (- sb)); [|reflexivity]. destruct (Req_EM_T cb cb); [|reflexivity]. destruct (Rlt_dec sb 0); lra. }
  rewrite FX, rad0, sin_0, cos_0. unfold Inverse_core. cbv zeta.
  assert (M : (if Req_EM_T A (-90) then true else if Req_EM_T 0 0 then true else false) = true).
  { destruct (Req_EM_T A (-90)); [reflexivity|]. destruct (Req_EM_T 0 0); [reflexivity|contradiction]. }
  rewrite M. replace 1.0 with 1 by lra. replace 0.0 with 0 by lra. rewrite !Rmult_1_l.
  replace (cb * sb - sb * cb) with 0 by ring. rewrite Rmax_left by lra.
  assert (AZ : atan2 0 (cb * cb + sb * sb) = 0).
  { apply (atan2_unique _ _ _ (cb * cb + sb * sb)); rewrite ?sin_0, ?cos_0; pose proof PI_RGT_0; nra. }
  rewrite AZ. unfold Lengths_out. cbv zeta. destruct (Rlt_dec 0 1) as [_|]; [|lra]. unfold dist_of. cbn [fst]. ring.
Qed.
Lemma Inverse_coincident g lat lon (k : Z) : -90 <= lat <= 90 -> idist (Inverse g lat lon lat (lon + IZR k * 360)) = 0.
Proof.
  intros H. rewrite Inverse_eq by exact H. cbv zeta. replace (lon + IZR k * 360 - lon) with (0 + IZR k * 360) by ring.
  rewrite AngNormalize_shift, AngNormalize_id by lra. rewrite Rabs_R0. destruct (Rlt_dec _ _); rewrite out_dist; apply canon_coincident.
Qed.

Lemma Inverse_equator g lon1 lon2 L : oblate g -> 0 < L <= 180 * (1 - gd_f g) -> L < 180 ->
  ((exists k : Z, lon2 = lon1 + L + IZR k * 360) -> Inverse g 0 lon1 0 lon2 = (gd_a g * radians L, 90, 90)) /\
  ((exists k : Z, lon2 = lon1 - L + IZR k * 360) -> Inverse g 0 lon1 0 lon2 = (gd_a g * radians L, -90, -90)).
Proof.
  intros O HL HL2. pose proof O as (_ & F & _).
  assert (CN : canon g 0 0 L = (gd_a g * radians L, (1, 0), (1, 0))).
  { unfold canon, reduced. rewrite sincosd_eq, rad0, sin_0, cos_0, Rmult_0_l. unfold norm2. rewrite hypot_comm, hypot_x0, Rabs_R1.
    replace (0 / 1) with 0 by field. replace (1 / 1) with 1 by field.
    assert (T1 : k_tiny <= 1). { rewrite tiny_eq. apply Rmult_le_reg_r with (2 ^ 26); [apply pow_lt; lra|]. rewrite Rinv_l by (apply pow_nonzero; lra). rewrite Rmult_1_l. apply pow_R1_Rle. lra. }
    rewrite Rmax_right by exact T1. unfold sbet_fix. destruct (Rlt_dec 1 (- 0)); [lra|]. unfold Inverse_core. cbv zeta.
    destruct (Req_EM_T 0 (-90)); [lra|]. destruct (Req_EM_T (sin (radians L)) 0) as [Z|_].
    { assert (0 < sin (radians L)); [|lra]. unfold radians. pose proof PI_RGT_0. apply sin_gt_0; nra. }
    destruct (Req_EM_T 0 0); [|contradiction].
    assert (Q : (if Rle_dec (gd_f g) 0 then true else if Rle_dec (gd_f g * 180) (180 - L) then true else false) = true).
    { destruct (Rle_dec (gd_f g) 0); [reflexivity|]. destruct (Rle_dec _ _); [reflexivity|lra]. }
    rewrite Q. replace 1.0 with 1 by lra. replace 0.0 with 0 by lra. reflexivity. }
  assert (A90 : atan2d 1 0 = 90).
  { rewrite atan2d_eq, (atan2_unique _ _ (PI/2) 1); rewrite ?sin_PI2, ?cos_PI2; pose proof PI_RGT_0; try lra. apply degrees_PI2. }
  assert (A91 : atan2d (-1) 0 = -90).
  { rewrite atan2d_eq, (atan2_unique _ _ (- (PI/2)) 1); rewrite ?sin_neg, ?cos_neg, ?sin_PI2, ?cos_PI2; pose proof PI_RGT_0; try lra. unfold degrees. field. lra. }
  split; intros [k ->]; rewrite Inverse_eq by lra; cbv zeta.
  - replace (lon1 + L + IZR k * 360 - lon1) with (L + IZR k * 360) by ring. rewrite AngNormalize_shift, AngNormalize_id by lra.
    rewrite Rabs_R0, (Rabs_right L) by lra. destruct (Rlt_dec 0 0); [lra|]. rewrite !Rmult_0_l, CN. unfold out, lpos. destruct (Rle_dec 0 L); [|lra].
    rewrite !Rmult_1_l, !Rmult_0_l, A90. reflexivity.
  - replace (lon1 - L + IZR k * 360 - lon1) with (- L + IZR k * 360) by ring. rewrite AngNormalize_shift, AngNormalize_id by lra.
    rewrite Rabs_R0, (Rabs_left (- L)), Ropp_involutive by lra. destruct (Rlt_dec 0 0); [lra|]. rewrite !Rmult_0_l, CN. unfold out, lpos. destruct (Rle_dec 0 (- L)); [lra|].
    rewrite !Rmult_1_l, !Rmult_0_l, A91. reflexivity.
Qed.

(** ** geodesic_line *)
Lemma line_length lat1 lon1 lat2 lon2 ell npts deg :
  let '(la, lo) := geodesic_line lat1 lon1 lat2 lon2 ell npts deg in List.length la = npts /\ List.length lo = npts.
Proof.
  unfold geodesic_line. destruct (geodesic_inverse _ _ _ _ _ _) as [[d az] az2]. now rewrite !map_length, seq_length.
Qed.
Lemma line_nth lat1 lon1 lat2 lon2 ell npts deg i : (i < npts)%nat ->
  let '(d, az, _) := geodesic_inverse lat1 lon1 lat2 lon2 ell deg in
  let '(la, lo) := geodesic_line lat1 lon1 lat2 lon2 ell npts deg in
  let frac := if Nat.ltb 1 npts then INR i / (INR npts - 1) else 0 in
  (nth i la 0, nth i lo 0) = fst (geodesic_direct lat1 lon1 az (d * frac) ell deg).
Proof.
  intros Hi. unfold geodesic_line. destruct (geodesic_inverse _ _ _ _ _ _) as [[d az] az2].
  set (f := fun i : nat => _). rewrite !map_map.
  rewrite (nth_indep _ 0 ((fun x => fst (f x)) 0%nat)) by (rewrite map_length, seq_length; exact Hi).
  rewrite (nth_indep (map (fun x => snd (f x)) _) 0 ((fun x => snd (f x)) 0%nat)) by (rewrite map_length, seq_length; exact Hi).
  rewrite !(map_nth (fun x => fst (f x))), !(map_nth (fun x => snd (f x))), seq_nth by exact Hi. cbn [Nat.add].
  unfold f. replace 0.0 with 0 by lra. destruct (geodesic_direct _ _ _ _ _ _) as [[a b] c]. reflexivity.
Qed.

(** ** geodesic_area *)
Lemma area_loop_perimeter es : forall a b p s, fst (area_loop es a b p s) = p + fold_right Rplus 0 (map (fun e => fst (fst e)) es).
Proof.
  induction es as [|[[d z1] z2] es IH]; intros; cbn [area_loop fst map fold_right]; [ring|]. rewrite IH. ring.
Qed.
Lemma azi_val S a E N : 0 < S -> S * sin (radians a) = E -> S * cos (radians a) = N -> -180 < a <= 180 -> a = degrees (atan2 E N).
Proof.
  intros SP Es Ec H. pose proof PI_RGT_0. rewrite (atan2_unique E N (radians a) S SP); [symmetry; apply deg_rad| |lra|lra]. unfold radians. nra.
Qed.
Lemma tiny_half : k_tiny <= 1 / 2.
Proof.
  rewrite tiny_eq. replace (2 ^ 26) with (2 * 2 ^ 25) by (simpl; ring). assert (1 <= 2 ^ 25) by (apply pow_R1_Rle; lra).
  rewrite Rinv_mult. assert (/ 2 ^ 25 <= 1) by (rewrite <- Rinv_1; apply Rinv_le_contravar; lra). lra.
Qed.
(** The triangle (0,0), (0,90), (45,45), counterclockwise seen from outside. *)
Definition alpha := atan (sqrt 2 / 2).
Lemma alpha_sc : sqrt 3 / 2 * sin alpha = 1 / 2 /\ sqrt 3 / 2 * cos alpha = sqrt 2 / 2 /\ 0 < alpha < PI / 4.
Proof.
  assert (s2 : sqrt 2 * sqrt 2 = 2) by (apply sqrt_sqrt; lra). assert (s3 : sqrt 3 * sqrt 3 = 3) by (apply sqrt_sqrt; lra).
  assert (p2 : 0 < sqrt 2) by (apply sqrt_lt_R0; lra). assert (p3 : 0 < sqrt 3) by (apply sqrt_lt_R0; lra).
  assert (E : sqrt 2 / 2 = (1 / 2) / (sqrt 2 / 2)) by (apply Rmult_eq_reg_r with (sqrt 2); [|lra]; field_simplify; [lra|lra]).
  assert (h : hypot (sqrt 2 / 2) (1 / 2) = sqrt 3 / 2) by (apply hypot_uniq; nra).
  pose proof (hypot_cos_atan (1 / 2) (sqrt 2 / 2) ltac:(lra)) as C. pose proof (hypot_sin_atan (1 / 2) (sqrt 2 / 2) ltac:(lra)) as S. rewrite h, <- E in C, S.
  fold alpha in C, S. split; [exact S|]. split; [exact C|]. split.
  - rewrite <- atan_0. apply atan_increasing. lra.
  - unfold alpha. rewrite <- atan_1. apply atan_increasing. nra.
Qed.
Lemma tri_edges g : spherical g -> oblate g ->
  (exists d1, Inverse g 0 0 0 90 = (d1, 90, 90)) /\
  (exists d2, Inverse g 0 90 45 45 = (d2, degrees (- alpha), degrees (alpha - PI/2))) /\
  (exists d3, Inverse g 45 45 0 0 = (d3, degrees (- (PI/2) - alpha), degrees (alpha - PI))).
Proof.
  intros S O. destruct alpha_sc as (As & Ac & Ar). pose proof PI_RGT_0 as P. pose proof tiny_half as TH.
  assert (s2 : sqrt 2 * sqrt 2 = 2) by (apply sqrt_sqrt; lra). assert (s3 : sqrt 3 * sqrt 3 = 3) by (apply sqrt_sqrt; lra).
  assert (p2 : 1 < sqrt 2) by (rewrite <- sqrt_1 at 1; apply sqrt_lt_1; lra). assert (p3 : 0 < sqrt 3) by (apply sqrt_lt_R0; lra).
  assert (R45 : radians 45 = PI/4) by (unfold radians; field). assert (R90 : radians 90 = PI/2) by (unfold radians; field).
  assert (S45 : sin (PI/4) = sqrt 2 / 2) by (rewrite sin_PI4; apply Rmult_eq_reg_r with (sqrt 2); [|lra]; field_simplify; lra).
  assert (C45 : cos (PI/4) = sqrt 2 / 2) by (rewrite cos_PI4; apply Rmult_eq_reg_r with (sqrt 2); [|lra]; field_simplify; lra).
  assert (AZ : forall S a E N r t, 0 <= S -> S ^ 2 = E ^ 2 + N ^ 2 -> S * sin (radians a) = E -> S * cos (radians a) = N -> -180 < a <= 180 ->
     0 < r -> - PI < t <= PI -> E = r * sin t -> N = r * cos t -> a = degrees t).
  { intros S' a E N r t S0 SS E1 E2 Ha Hr Ht Es Ec. assert (SP : 0 < S').
    { destruct S0 as [|Z]; [assumption|]. rewrite <- Z, Es, Ec in SS. pose proof (sc1 t). exfalso. nra. }
    rewrite (azi_val S' a E N SP E1 E2 Ha). f_equal. apply (atan2_unique _ _ _ r); assumption. }
  split; [|split].
  - destruct S as (F0 & _). destruct (Inverse_equator g 0 90 90 O) as [H _]; [rewrite F0; lra|lra|]. eexists. apply H. exists 0%Z. simpl. ring.
  - pose proof (Inverse_sphere g 0 90 45 45 S ltac:(lra) ltac:(lra)) as Q.
    rewrite rad0, R45, R90, cos_0, C45 in Q. specialize (Q ltac:(lra) ltac:(lra)). cbv zeta in Q.
    pose proof (Inverse_eq g 0 90 45 45 ltac:(lra)) as IE. cbv zeta in IE.
    assert (RG : -180 < iaz1 (Inverse g 0 90 45 45) <= 180 /\ -180 < iaz2 (Inverse g 0 90 45 45) <= 180).
    { rewrite IE. destruct (Rlt_dec _ _); destruct (canon _ _ _ _) as [[s [x1 y1]] [x2 y2]]; split; apply atan2d_range. }
    destruct (Inverse g 0 90 45 45) as [[d a1] a2]. unfold iaz1, iaz2 in RG. cbn [fst snd] in RG. destruct RG as [G1 G2].
    destruct Q as (_ & S' & S0 & SS & _ & E1 & E2 & E3 & E4). exists d.
    unfold dep_E, dep_N, arr_E, arr_N in *. replace (PI/4 - PI/2) with (- (PI/4)) in * by field. rewrite sin_neg, cos_neg, S45, C45, sin_0, cos_0 in *.
    apply f_equal2; [apply f_equal2; [reflexivity|]|].
    + apply (AZ _ _ _ _ (sqrt 3 / 2) _ S0 SS E1 E2 G1); [lra|lra|rewrite sin_neg; lra|rewrite cos_neg; lra].
    + apply (AZ S' a2 _ _ (sqrt 3 / 2) (alpha - PI / 2) S0) with (3 := E4) (2 := E3); [rewrite SS; field_simplify; lra|assumption|lra|lra| |].
      * replace (alpha - PI/2) with (- (PI/2 - alpha)) by ring. rewrite sin_neg, sin_shift. lra.
      * replace (alpha - PI/2) with (- (PI/2 - alpha)) by ring. rewrite cos_neg, cos_shift. lra.
  - pose proof (Inverse_sphere g 45 45 0 0 S ltac:(lra) ltac:(lra)) as Q.
    rewrite rad0, R45, cos_0, C45 in Q. specialize (Q ltac:(lra) ltac:(lra)). cbv zeta in Q.
    pose proof (Inverse_eq g 45 45 0 0 ltac:(lra)) as IE. cbv zeta in IE.
    assert (RG : -180 < iaz1 (Inverse g 45 45 0 0) <= 180 /\ -180 < iaz2 (Inverse g 45 45 0 0) <= 180).
    { rewrite IE. destruct (Rlt_dec _ _); destruct (canon _ _ _ _) as [[s [x1 y1]] [x2 y2]]; split; apply atan2d_range. }
    destruct (Inverse g 45 45 0 0) as [[d a1] a2]. unfold iaz1, iaz2 in RG. cbn [fst snd] in RG. destruct RG as [G1 G2].
    destruct Q as (_ & S' & S0 & SS & _ & E1 & E2 & E3 & E4). exists d.
    unfold dep_E, dep_N, arr_E, arr_N in *. replace (0 - PI/4) with (- (PI/4)) in * by field. rewrite sin_neg, cos_neg, S45, C45, sin_0, cos_0 in *.
    apply f_equal2; [apply f_equal2; [reflexivity|]|].
    + apply (AZ _ _ _ _ (sqrt 3 / 2) _ S0 SS E1 E2 G1); [lra|lra| |].
      * replace (- (PI/2) - alpha) with (- (PI/2 + alpha)) by ring. rewrite sin_neg, sin_plus, sin_PI2, cos_PI2. lra.
      * replace (- (PI/2) - alpha) with (- (PI/2 + alpha)) by ring. rewrite cos_neg, cos_plus, sin_PI2, cos_PI2. lra.
    + apply (AZ S' a2 _ _ (sqrt 3 / 2) (alpha - PI) S0) with (3 := E4) (2 := E3); [rewrite SS; field_simplify; lra|assumption|lra|lra| |].
      * rewrite sin_minus, cos_PI, sin_PI. lra.
      * rewrite cos_minus, cos_PI, sin_PI. lra.
Qed.
Lemma sphere_c2 ell : ell_ok ell -> ell_a ell = ell_b ell -> gd_c2 (get_geodesic ell) = ell_a ell ^ 2.
Proof.
  intros H E. unfold get_geodesic, geodesic_init. cbn [gd_c2]. rewrite (L_vincenty3.sphere_f ell H E), L_ell.resolve_a.
  rewrite Rmult_0_l. destruct (Req_EM_T 0 0); [reflexivity|contradiction].
Qed.
Lemma degrees_bounds x : 0 < x < PI / 4 -> 0 < degrees x < 45.
Proof.
  intros H. pose proof PI_RGT_0. unfold degrees. assert (E : x * (180 / PI) * PI = x * 180) by (field; lra).
  split; apply Rmult_lt_reg_r with PI; lra.
Qed.
Lemma degrees_minus a b : degrees (a - b) = degrees a - degrees b.
Proof. unfold degrees, Rdiv. ring. Qed.
Lemma degrees_opp a : degrees (- a) = - degrees a.
Proof. unfold degrees, Rdiv. ring. Qed.
Lemma area_triangle ell : ell_ok ell -> ell_a ell = ell_b ell ->
  (exists p, geodesic_area [(0, 0); (0, 90); (45, 45)] ell true = Ok (- (ell_a ell ^ 2 * (PI + 4 * alpha)), p)) /\
  (exists p, geodesic_area [(0, 0); (0, PI/2); (PI/4, PI/4)] ell false = Ok (ell_a ell ^ 2 * radians (PI - 4 * alpha), p)).
Proof.
  intros H E. destruct (get_spherical ell H E) as [S _]. destruct (get_oblate ell H) as [O _]. pose proof (sphere_c2 ell H E) as C2.
  destruct (L_ell.ell_pos ell H) as [Hb Ha].
  destruct (tri_edges _ S O) as ((d1 & E1) & (d2 & E2) & (d3 & E3)). destruct alpha_sc as (_ & _ & Ar). pose proof PI_RGT_0 as P.
  pose proof (degrees_bounds alpha Ar) as DB. pose proof PI_4. assert (AA : 0 < ell_a ell ^ 2) by (apply pow_lt; lra).
  assert (W : forall x, 0 < x < 2 * PI -> ~ 4.0 * PI * ell_a ell ^ 2 / 2 < ell_a ell ^ 2 * x).
  { intros x Hx X. assert (ell_a ell ^ 2 * x < ell_a ell ^ 2 * (2 * PI)) by (apply Rmult_lt_compat_l; lra). lra. }
  split.
  - unfold geodesic_area. cbn [List.length Nat.ltb Nat.leb]. unfold edges. cbn [combine app map]. unfold geodesic_inverse. rewrite E1, E2, E3.
    cbn [area_loop]. rewrite !AngDiff_eq. cbn [fst]. rewrite !degrees_minus, !degrees_opp, degrees_PI, degrees_PI2.
    rewrite (AngNormalize_id (- degrees alpha - 90)) by lra. rewrite (AngNormalize_id (- (90) - degrees alpha - (degrees alpha - 90))) by lra.
    replace (90 - (degrees alpha - 180)) with ((- 90 - degrees alpha) + IZR 1 * 360) by (simpl; ring). rewrite AngNormalize_shift, AngNormalize_id by lra.
    rewrite C2. exists (0.0 + d1 + d2 + d3).
    replace (radians (0.0 + (- degrees alpha - 90) + (- (90) - degrees alpha - (degrees alpha - 90)) + (-90 - degrees alpha))) with (- (PI + 4 * alpha)).
    2: { rewrite <- (rad_deg alpha) at 1. unfold radians. lra. }
    rewrite Ropp_mult_distr_r_reverse, Rabs_Ropp, Rabs_right by (left; apply Rmult_lt_0_compat; lra).
    destruct (Rlt_dec _ _) as [X|_]; [exfalso; revert X; apply W; lra|]. reflexivity.
  - unfold geodesic_area. cbn [List.length Nat.ltb Nat.leb]. unfold edges. cbn [combine app map]. unfold geodesic_inverse.
    assert (D0 : degrees 0 = 0) by (unfold degrees, Rdiv; ring). assert (D4 : degrees (PI/4) = 45) by (unfold degrees; field; lra).
    rewrite D0, D4, degrees_PI2, E1, E2, E3. rewrite !rad_deg.
    cbn [area_loop]. rewrite !AngDiff_eq. cbn [fst]. assert (R90 : radians 90 = PI/2) by (unfold radians; field). rewrite R90.
    rewrite !AngNormalize_id by lra. rewrite C2. eexists.
    replace (0.0 + (- alpha - PI/2) + (- (PI/2) - alpha - (alpha - PI/2)) + (PI/2 - (alpha - PI))) with (PI - 4 * alpha) by lra.
    rewrite Rabs_right by (apply Rle_ge, Rmult_le_pos; [lra|]; unfold radians; nra).
    destruct (Rlt_dec _ _) as [X|_]; [exfalso; revert X; apply W; unfold radians; nra|]. reflexivity.
Qed.
