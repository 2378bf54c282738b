(** geodesic_direct ends where the exact geodesic does, to O(n^7). *)
From Coq Require Import Reals Lra Lia Psatz.
From Coquelicot Require Import Coquelicot.
From Verif Require Import PyMath M_karney L_PyMath L_karney L_karney2 L_karney3 L_karney4 L_karney5 L_series1 L_series2 L_series3 Spec Spec_geodesic L_aer L_geodesic1 L_geodesic2 L_geodesic3 L_geodesic4.
From Verif Require L_vincenty4.
Open Scope R_scope.

Lemma eps_n g : oblate g -> eps_of (gd_ep2 g) = gd_n g.
Proof.
  intros (_ & Hf & F1 & _ & Ep & En & _). rewrite Ep, En, F1. unfold eps_of. replace 1.0 with 1 by lra. replace 2.0 with 2 by lra. set (f := gd_f g) in *.
  replace (1 + f * (2 - f) / (1 - f) ^ 2) with ((/ (1 - f)) ^ 2) by (field; lra). rewrite sqrt_pow2 by (left; apply Rinv_0_lt_compat; lra). field. repeat split; nra.
Qed.
Lemma sig12_eq g k2 e t1 s12 : Rabs (gd_f g) <= 1 / 100 ->
  Direct_sig12 g k2 e (sin t1) (cos t1) s12 = sser e (tser e t1 + s12 / (gd_b g * (1 + A1m1f e))) - t1.
Proof.
  intros Hf. unfold Direct_sig12. replace 1.0 with 1 by lra. replace 0.01 with (1 / 100) by lra. destruct (Rlt_dec (1 / 100) (Rabs (gd_f g))) as [X|_]; [lra|]. cbv zeta.
  unfold tser, sser. set (B := SinCosSeries true (sin t1) (cos t1) (arr (C1f e)) nC1). set (q := s12 / _).
  rewrite <- !sin_plus, <- (cos_plus t1 B).
  replace (sin t1 * cos B + cos t1 * sin B) with (sin (t1 + B)) by (rewrite sin_plus; ring).
  replace (cos t1 * cos B - sin t1 * sin B) with (cos (t1 + B)) by (rewrite cos_plus; ring).
  rewrite <- sin_plus, <- cos_plus. ring.
Qed.
Lemma A1_bound e : 0 <= e <= 1 / 50 -> 1 <= 1 + A1m1f e <= 103 / 100.
Proof.
  intros He. rewrite A1_val by lra. set (x := (e ^ 6 + 4 * e ^ 4 + 64 * e ^ 2) / 256).
  assert (P : 0 <= e ^ 2 <= 1 / 2500) by nra. assert (Q : 0 <= e ^ 4 <= 1 / 2500) by (replace (e ^ 4) with (e ^ 2 * e ^ 2) by ring; nra). assert (Q6 : 0 <= e ^ 6 <= 1 / 2500) by (replace (e ^ 6) with (e ^ 2 * e ^ 4) by ring; nra).
  assert (X : 0 <= x <= 1 / 1000) by (unfold x; lra). split.
  - apply Rmult_le_reg_r with (1 - e); [lra|]. replace ((1 + x) / (1 - e) * (1 - e)) with (1 + x) by (field; lra). lra.
  - apply Rmult_le_reg_r with (1 - e); [lra|]. replace ((1 + x) / (1 - e) * (1 - e)) with (1 + x) by (field; lra). lra.
Qed.
Lemma dexact_lower k2 t1 t2 : 0 <= k2 -> Rabs (t2 - t1) <= Rabs (dexact k2 t2 - dexact k2 t1).
Proof.
  intros H. destruct (MVT_gen (dexact k2) t1 t2 (fun t => sqrt (1 + k2 * sin t ^ 2))) as (c & _ & E).
  - intros; now apply dexact_derive.
  - intros t _. apply derivable_continuous_pt. eexists. apply is_derive_Reals. now apply dexact_derive.
  - rewrite E, Rabs_mult. assert (1 <= sqrt (1 + k2 * sin c ^ 2)). { rewrite <- sqrt_1 at 1. apply sqrt_le_1_alt. pose proof (pow2_ge_0 (sin c)). nra. }
    rewrite (Rabs_right (sqrt _)) by lra. pose proof (Rabs_pos (t2 - t1)). nra.
Qed.
(** The arc found by the code has the requested length. *)
Lemma arc_length g k2 t1 s12 : oblate g -> gd_f g <= 1 / 100 -> 0 <= k2 -> eps_of k2 <= gd_n g ->
  let n := gd_n g in let b := gd_b g in let sg := Direct_sig12 g k2 (eps_of k2) (sin t1) (cos t1) s12 in
  Rabs (b * (dexact k2 (t1 + sg) - dexact k2 t1) - s12) <= b * n ^ 7 * (217 + 20 * Rabs sg) /\
  Rabs sg <= 1001 / 1000 * (Rabs s12 / b) + 1 / 100 /\ 0 <= n <= 1 / 199.
Proof.
  intros O Hf Hk He n b sg. pose proof O as ((Hb & _) & F & _ & _ & _ & En & _). destruct (eps_props k2 Hk) as [Er _]. set (e := eps_of k2) in *.
  assert (Hn : 0 <= n <= 1 / 199).
  { unfold n. rewrite En. split; [apply Rmult_le_pos; [lra|left; apply Rinv_0_lt_compat; lra]|]. apply Rmult_le_reg_r with (2 - gd_f g); [lra|]. replace (gd_f g / (2 - gd_f g) * (2 - gd_f g)) with (gd_f g) by (field; lra). lra. }
  fold n in He. pose proof (distance_series k2 e Hk eq_refl ltac:(lra) t1 (t1 + sg)) as DS. replace (t1 + sg - t1) with sg in DS by ring.
  assert (Ef : Rabs (gd_f g) <= 1 / 100) by (rewrite Rabs_right; lra). pose proof (sig12_eq g k2 e t1 s12 Ef) as SE. fold sg in SE.
  pose proof (A1_bound e ltac:(lra)) as AB. set (A := 1 + A1m1f e) in *. fold b in SE, Hb. set (tau := tser e t1 + s12 / (b * A)) in *.
  pose proof (reversion e tau ltac:(lra)) as RV. replace (sser e tau) with (t1 + sg) in RV by (rewrite SE; ring).
  assert (DD : dser e (t1 + sg) - dser e t1 = s12 / b + A * (tser e (t1 + sg) - tau)). { unfold dser. fold A. fold (tser e (t1 + sg)) (tser e t1). unfold tau. field. split; lra. }
  assert (E7 : 0 <= e ^ 7 <= n ^ 7) by (split; [apply pow_le; lra|apply pow_incr; lra]). pose proof (Rabs_pos sg) as SP.
  assert (M1 : Rabs (A * (tser e (t1 + sg) - tau)) <= 217 * n ^ 7). { rewrite Rabs_mult, (Rabs_right A) by lra. pose proof (Rabs_pos (tser e (t1 + sg) - tau)). nra. }
  set (L := dexact k2 (t1 + sg) - dexact k2 t1) in *.
  assert (M : Rabs (L - s12 / b) <= n ^ 7 * (217 + 20 * Rabs sg)).
  { replace (L - s12 / b) with (A * (tser e (t1 + sg) - tau) - (dser e (t1 + sg) - dser e t1 - L)) by (rewrite DD; ring).
    eapply Rle_trans; [apply Rabs_triang|]. rewrite Rabs_Ropp. assert (20 * e ^ 7 * Rabs sg <= 20 * n ^ 7 * Rabs sg) by nra. lra. }
  split; [|split; [|exact Hn]].
  - replace (b * L - s12) with (b * (L - s12 / b)) by (field; lra). rewrite Rabs_mult, (Rabs_right b) by lra. replace (b * n ^ 7 * (217 + 20 * Rabs sg)) with (b * (n ^ 7 * (217 + 20 * Rabs sg))) by ring. apply Rmult_le_compat_l; lra.
  - pose proof (dexact_lower k2 t1 (t1 + sg) Hk) as DL. replace (t1 + sg - t1) with sg in DL by ring. fold L in DL.
    assert (N7 : 0 <= n ^ 7 <= 1 / 1000000). { split; [apply pow_le; lra|]. apply Rle_trans with ((1 / 199) ^ 7); [apply pow_incr; lra|]. lra. }
    assert (Ab : Rabs (s12 / b) = Rabs s12 / b) by (unfold Rdiv; rewrite Rabs_mult, (Rabs_right (/ b)); [reflexivity|left; now apply Rinv_0_lt_compat]). rewrite <- Ab.
    assert (T : Rabs L <= Rabs (L - s12 / b) + Rabs (s12 / b)) by (replace L with (L - s12 / b + s12 / b) at 1 by ring; apply Rabs_triang).
    pose proof (Rabs_pos (s12 / b)). nra.
Qed.
(** the pole of the end point is excluded by its latitude *)
Lemma pole_lat f1 z : 0 < f1 <= 1 -> z ^ 2 = 1 -> cos (atan2 z (f1 * k_tiny)) < k_tiny.
Proof.
  intros Hf Hz. pose proof tiny_pos as T. pose proof (hypot_cos_atan2 z (f1 * k_tiny)) as C. set (h := hypot (f1 * k_tiny) z) in *.
  assert (P : 0 < f1 * k_tiny) by nra. assert (H2 : h ^ 2 = (f1 * k_tiny) ^ 2 + z ^ 2) by apply hypot_pow2. assert (H0 : 0 <= h) by apply hypot_nonneg.
  assert (H1 : 1 < h) by (apply Rnot_le_lt; intros X; nra). assert (Cp : 0 < cos (atan2 z (f1 * k_tiny))) by (apply Rmult_lt_reg_l with h; lra). nra.
Qed.
(** the point the code returns for a pole *)
Lemma pole_point a f1 z l : 0 < a -> 0 < f1 <= 1 -> z ^ 2 = 1 -> vdist3 (surface_point a (a * f1) (atan2 z (f1 * k_tiny)) l) (0, 0, a * f1 * z) <= 2 * a * k_tiny.
Proof.
  intros Ha Hf Hz. pose proof tiny_pos as T. pose proof (hypot_cos_atan2 z (f1 * k_tiny)) as C. pose proof (hypot_sin_atan2 z (f1 * k_tiny)) as S. set (p := atan2 z (f1 * k_tiny)) in *.
  set (h := hypot (f1 * k_tiny) z) in *. assert (H2 : h ^ 2 = (f1 * k_tiny) ^ 2 + z ^ 2) by apply hypot_pow2. assert (H0 : 0 <= h) by apply hypot_nonneg.
  assert (Hh : 0 < h) by (apply Rnot_le_lt; intros X; assert (h = 0) by lra; subst h; nra).
  assert (Cp : cos p = f1 * k_tiny / h) by (rewrite <- C; field; lra). assert (Sp : sin p = z / h) by (rewrite <- S; field; lra).
  set (r := sqrt (1 + k_tiny ^ 2)). assert (r2 : r ^ 2 = 1 + k_tiny ^ 2) by (unfold r; rewrite <- Rsqr_pow2, Rsqr_sqrt; nra). assert (r0 : 0 <= r) by apply sqrt_pos. assert (r1 : 1 <= r) by (apply Rnot_lt_le; intros X; nra).
  assert (W : sqrt ((a * cos p) ^ 2 + (a * f1 * sin p) ^ 2) = a * f1 * r / h).
  { rewrite <- (sqrt_pow2 (a * f1 * r / h)); [|apply Rmult_le_pos; [apply Rmult_le_pos; [nra|lra]|left; now apply Rinv_0_lt_compat]]. f_equal. rewrite Cp, Sp.
    replace ((a * f1 * r / h) ^ 2) with (a ^ 2 * f1 ^ 2 * r ^ 2 / h ^ 2) by (field; lra). rewrite r2. replace ((a * (f1 * k_tiny / h)) ^ 2 + (a * f1 * (z / h)) ^ 2) with (a ^ 2 * f1 ^ 2 * (k_tiny ^ 2 + z ^ 2) / h ^ 2) by (field; lra). rewrite Hz. field. lra. }
  unfold surface_point. rewrite W, Cp, Sp.
  assert (E : (a ^ 2 / (a * f1 * r / h) * (f1 * k_tiny / h) * cos l, a ^ 2 / (a * f1 * r / h) * (f1 * k_tiny / h) * sin l, (a * f1 / a) ^ 2 * (a ^ 2 / (a * f1 * r / h)) * (z / h)) = (a * k_tiny / r * cos l, a * k_tiny / r * sin l, a * f1 * z / r)).
  { apply f_equal2; [apply f_equal2|]; field; repeat split; lra. }
  rewrite E. unfold vdist3. apply vnorm_le_sq; [nra|]. cbn [vsub vdot]. pose proof (sc1 l) as Ql.
  match goal with |- ?x <= _ => replace x with ((a * k_tiny / r) ^ 2 * (sin l * sin l + cos l * cos l) + a ^ 2 * f1 ^ 2 * z ^ 2 * (1 - / r) ^ 2) by (field; lra) end. rewrite Ql, Hz.
  assert (I : 0 <= 1 - / r <= k_tiny ^ 2).
  { assert (I1 : / r <= 1) by (rewrite <- Rinv_1; apply Rinv_le_contravar; lra). split; [lra|]. apply Rmult_le_reg_r with r; [lra|]. replace ((1 - / r) * r) with (r - 1) by (field; lra).
    assert (Q1 : (r - 1) * (r + 1) = k_tiny ^ 2) by (ring_simplify; lra). assert (r - 1 <= k_tiny ^ 2) by nra. pose proof (pow2_ge_0 k_tiny). nra. }
  assert (T1 : k_tiny <= 1). { rewrite tiny_eq. apply Rmult_le_reg_r with (2 ^ 26); [apply pow_lt; lra|]. rewrite Rinv_l by (apply pow_nonzero; lra). rewrite Rmult_1_l. apply pow_R1_Rle. lra. }
  assert (Y1 : (a * k_tiny / r) ^ 2 <= (a * k_tiny) ^ 2). { apply pow_incr. split; [apply Rmult_le_pos; [nra|left; apply Rinv_0_lt_compat; lra]|]. apply Rmult_le_reg_r with r; [lra|]. replace (a * k_tiny / r * r) with (a * k_tiny) by (field; lra). assert (0 < a * k_tiny) by (apply Rmult_lt_0_compat; lra). nra. }
  assert (Y2 : (1 - / r) ^ 2 <= k_tiny ^ 2) by (apply pow_incr; nra). assert (Y3 : f1 ^ 2 <= 1) by nra.
  assert (Y4 : a ^ 2 * f1 ^ 2 * 1 * (1 - / r) ^ 2 <= a ^ 2 * k_tiny ^ 2). { rewrite Rmult_1_r. apply Rmult_le_compat; [apply Rmult_le_pos; apply pow2_ge_0|apply pow2_ge_0|pose proof (pow2_ge_0 a); nra|exact Y2]. }
  nra.
Qed.
Theorem Direct_geodesic g lat1 lon1 azi1 s12 c t : oblate g -> gd_f g <= 1 / 100 -> k_tiny <= cos (radians lat1) ->
  let a := gd_a g in let b := gd_b g in let n := gd_n g in
  unit_geodesic a b c t -> c 0 = surface_point a b (radians lat1) (radians lon1) -> t 0 = heading_vector (radians lat1) (radians lon1) (radians azi1) ->
  let '(lat2, lon2, azi2) := Direct g lat1 lon1 azi1 s12 in
  (vdist3 (surface_point a b (radians lat2) (radians lon2)) (c s12) <= a * n ^ 7 * (300 + 80 * (Rabs s12 / b)) /\
   vdist3 (heading_vector (radians lat2) (radians lon2) (radians azi2)) (t s12) <= n ^ 7 * (300 + 80 * (Rabs s12 / b))) \/
  (cos (radians lat2) < k_tiny /\ sin (radians azi1) = 0 /\
   vdist3 (surface_point a b (radians lat2) (radians lon2)) (c s12) <= a * n ^ 7 * (300 + 80 * (Rabs s12 / b)) + 2 * a * k_tiny).
Proof.
  intros O Hf HT a b n HG Hc0 Ht0. pose proof O as (Hab & F & F1 & B & Ep & En & _). pose proof (oblate_f1 g O) as Ff. pose proof tiny_pos as TP.
  assert (CP : 0 < cos (radians lat1)) by lra. destruct (reduced_eq g lat1 ltac:(lra) ltac:(lra)) as (h & hp & E1 & E2 & hh).
  pose proof (sc1 (radians lat1)) as Q. assert (h1 : h <= 1).
  { assert (h ^ 2 <= 1); [|apply Rnot_lt_le; intros X; nra]. rewrite hh. assert (gd_f1 g ^ 2 <= 1) by (destruct Ff; nra).
    pose proof (pow2_ge_0 (sin (radians lat1))). replace ((sin (radians lat1) * gd_f1 g) ^ 2) with (sin (radians lat1) ^ 2 * gd_f1 g ^ 2) by ring.
    assert (sin (radians lat1) ^ 2 * gd_f1 g ^ 2 <= sin (radians lat1) ^ 2 * 1) by (apply Rmult_le_compat_l; assumption). nra. }
  assert (CH : cos (radians lat1) <= cos (radians lat1) / h).
  { apply Rmult_le_reg_r with h; [lra|]. unfold Rdiv. rewrite Rmult_assoc, Rinv_l by lra. nra. }
  rewrite Rmax_right in E2 by lra.
  unfold Direct. rewrite sincosd_norm, AngRound_id. destruct (reduced g lat1) as [sb cb]. cbn [fst snd] in E1, E2. cbv zeta.
  set (az := radians azi1) in *. set (l := radians lon1) in *. set (phi := radians lat1) in *.
  assert (Hb : sb ^ 2 + cb ^ 2 = 1).
  { rewrite E1, E2. replace ((sin phi * gd_f1 g / h) ^ 2 + (cos phi / h) ^ 2) with (((sin phi * gd_f1 g) ^ 2 + cos phi ^ 2) / h ^ 2) by (field; lra). rewrite <- hh. field. lra. }
  assert (Hcb : 0 < cb) by (rewrite E2; apply Rdiv_lt_0_compat; lra).
  set (U := atan2 sb cb). assert (HU : hypot cb sb = 1) by (apply hypot_uniq; lra).
  pose proof (hypot_cos_atan2 sb cb) as CU. pose proof (hypot_sin_atan2 sb cb) as SU. rewrite HU, Rmult_1_l in CU, SU. fold U in CU, SU.
  rewrite <- CU, <- SU in *. clear HU.
  destruct (hypot_unfold (cos az) (sin az * sin U)) as [C0 C0s]. set (ca0 := hypot (cos az) (sin az * sin U)) in *.
  assert (Ha : sin az ^ 2 + cos az ^ 2 = 1) by (rewrite <- (sc1 az); ring).
  assert (C0t : ca0 ^ 2 = sin U ^ 2 + (cos az * cos U) ^ 2) by (rewrite C0s; nra).
  assert (C01 : ca0 ^ 2 <= 1) by (rewrite C0s; assert (sin U ^ 2 <= 1) by nra; pose proof (pow2_ge_0 (sin az)); nra).
  pose proof (sig_pair_eq (sin U) (cos az * cos U) ca0 C0 C0t) as SP. destruct (sig_pair _ _) as [ss1 cs1]. destruct SP as (S1 & S2 & S3 & S4).
  set (t1 := atan2 ss1 cs1). assert (H1 : hypot cs1 ss1 = 1) by (apply hypot_uniq; lra).
  pose proof (hypot_cos_atan2 ss1 cs1) as C1. pose proof (hypot_sin_atan2 ss1 cs1) as D1. rewrite H1, Rmult_1_l in C1, D1. fold t1 in C1, D1. clear H1.
  set (k2 := ca0 ^ 2 * gd_ep2 g). set (e := eps_of k2).
  assert (Ep0 : 0 <= gd_ep2 g). { rewrite Ep. apply Rmult_le_pos; [nra|]. left. apply Rinv_0_lt_compat. nra. }
  assert (Hk : 0 <= k2) by (unfold k2; pose proof (pow2_ge_0 ca0); nra). assert (He : eps_of k2 <= n).
  { unfold n. rewrite <- (eps_n g O). apply eps_incr. split; [exact Hk|]. unfold k2. nra. }
  destruct (arc_length g k2 t1 s12 O Hf Hk He) as (AL & SB & Hn). fold b in AL, SB. fold n in AL, Hn. rewrite C1, D1 in AL, SB. fold e in AL, SB.
  set (sg := Direct_sig12 g k2 e ss1 cs1 s12) in *. fold n in He.
  (* the exact curve *)
  set (f := gd_f g) in *. 
  pose (x1 := cos U * cos l). pose (y1 := cos U * sin l). pose (z1 := sin U).
  pose (x2 := cos az * - (sin U * cos l) + sin az * - sin l). pose (y2 := cos az * - (sin U * sin l) + sin az * cos l). pose (z2 := cos az * cos U + sin az * 0).
  pose proof (sc1 l) as SL. assert (SL' : sin l ^ 2 = 1 - cos l ^ 2) by nra. assert (SU' : sin U ^ 2 = 1 - cos U ^ 2) by lra. assert (SA' : sin az ^ 2 = 1 - cos az ^ 2) by lra.
  assert (U1 : x1 ^ 2 + y1 ^ 2 + z1 ^ 2 = 1) by (unfold x1, y1, z1; ring [SL' SU' SA']).
  assert (U2 : x2 ^ 2 + y2 ^ 2 + z2 ^ 2 = 1) by (unfold x2, y2, z2; ring [SL' SU' SA']).
  assert (U12 : x1 * x2 + y1 * y2 + z1 * z2 = 0) by (unfold x1, y1, z1, x2, y2, z2; ring [SL' SU' SA']).
  assert (HZ1 : z1 = ca0 * sin t1) by (rewrite D1, S1; reflexivity).
  assert (HZ2 : z2 = ca0 * cos t1) by (rewrite C1, S2; unfold z2; ring).
  assert (S0 : c_s0 x1 y1 x2 y2 = sin az * cos U) by (unfold c_s0, x1, y1, x2, y2; ring [SL' SU' SA']).
  assert (K2 : c_k2 f ca0 = k2) by (unfold c_k2, k2; rewrite Ep, F1; reflexivity).
  assert (Eb : b = a * (1 - f)) by (unfold b, a; rewrite B, F1; reflexivity).
  assert (Ap : 0 < a) by (unfold a; lra).
  pose proof (geodesic_exists a f x1 y1 z1 x2 y2 z2 ca0 t1 Ap F U1 U2 U12 HZ1 HZ2) as GE. rewrite <- Eb in GE.
  set (hh' := ex_h a f ca0 t1 Ap F) in GE. pose proof (ex_h_len a f ca0 t1 Ap F) as HL. fold hh' in HL.
  set (pos := c_pos a f x1 y1 z1 x2 y2 z2 ca0 t1) in *. set (tn := c_tan f x1 y1 z1 x2 y2 z2 ca0 t1) in *. set (len := c_len a f ca0 t1) in *.
  (* start *)
  assert (H0 : hh' 0 = 0) by (rewrite <- (c_len_0 a f ca0 t1) at 1; apply HL).
  assert (AT0 : pos 0 = surface_point a b phi l /\ tn 0 = heading_vector phi l az).
  { pose proof (at_frame a f x1 y1 z1 x2 y2 z2 ca0 t1 Ap F U1 U2 U12 HZ1 HZ2 0 U l az phi) as AF. cbv zeta in AF. fold pos tn in AF. rewrite <- Eb in AF.
    assert (TH0 : c_th f x1 y1 x2 y2 ca0 t1 0 = 0) by (unfold c_th; rewrite Rplus_0_r; ring). rewrite TH0, Rplus_0_r in AF.
    assert (U0 : c_u f ca0 t1 0 = gd_f1 g / h).
    { assert (Q2 : c_u f ca0 t1 0 ^ 2 = (gd_f1 g / h) ^ 2).
      { rewrite (c_u_sq f z1 z2 ca0 t1 F HZ1 HZ2 0). replace (c_Z z1 z2 0) with z1 by (unfold c_Z; rewrite cos_0, sin_0; ring). unfold z1. rewrite E1. rewrite F1 in *.
        replace ((sin phi * (1 - f) / h) ^ 2) with ((sin phi * (1 - f)) ^ 2 / h ^ 2) by (field; lra). replace (((1 - f) / h) ^ 2) with ((1 - f) ^ 2 / h ^ 2) by (field; lra). rewrite hh.
        assert (W : sin phi ^ 2 = 1 - cos phi ^ 2) by nra. assert (Wn : (sin phi * (1 - f)) ^ 2 + cos phi ^ 2 <> 0) by (rewrite <- hh; apply pow_nonzero; lra).
        apply Rmult_eq_reg_r with ((sin phi * (1 - f)) ^ 2 + cos phi ^ 2); [|exact Wn].
        match goal with |- ?x = ?y => replace y with ((1 - f) ^ 2) by (field; exact Wn); replace x with ((1 - f * (2 - f)) * ((sin phi * (1 - f)) ^ 2 + cos phi ^ 2) + f * (2 - f) * (sin phi * (1 - f)) ^ 2) by (field; exact Wn) end.
        replace ((sin phi * (1 - f)) ^ 2) with ((1 - f) ^ 2 * sin phi ^ 2) by ring. rewrite W. ring. }
      pose proof (c_u_pos f ca0 t1 F 0) as P1. assert (P2 : 0 < gd_f1 g / h) by (apply Rdiv_lt_0_compat; lra).
      apply Rsqr_inj; [lra|lra|]. rewrite !Rsqr_pow2. exact Q2. }
    apply AF.
    - unfold c_X, c_Y, c_Z, unit_normal. rewrite cos_0, sin_0. unfold x1, y1, z1. apply f_equal2; [apply f_equal2|]; ring.
    - unfold c_X', c_Y', c_Z', heading_vector, north_axis, east_axis, vadd, vscale. rewrite cos_0, sin_0. unfold x2, y2, z2. apply f_equal2; [apply f_equal2|]; ring.
    - rewrite U0, E1. field. lra.
    - rewrite U0, E2, F1. field. lra. }
  destruct AT0 as [P0 T0].
  assert (UQ : forall s, c s = pos (hh' s) /\ t s = tn (hh' s)).
  { intros s. apply (geodesic_unique a b (proj1 Hab) (proj2 Hab) c t (fun s => pos (hh' s)) (fun s => tn (hh' s)) HG GE); cbv beta; rewrite H0; [rewrite P0; exact Hc0|rewrite T0; exact Ht0]. }
  assert (LEN : len sg = b * (dexact k2 (t1 + sg) - dexact k2 t1)) by (unfold len, c_len; rewrite K2, Eb; reflexivity).
  assert (DLEN : Rabs (len sg - s12) <= b * n ^ 7 * (217 + 20 * Rabs sg)) by (rewrite LEN; exact AL).
  destruct (UQ (len sg)) as [UP UT]. rewrite HL in UP, UT.
  assert (N7 : 0 <= n ^ 7) by (apply pow_le; lra). pose proof (Rabs_pos sg) as Sp. pose proof (Rabs_pos s12) as Sp2.
  assert (Bp : 0 < b) by (unfold b; lra). assert (q0 : 0 <= Rabs s12 / b) by (apply Rmult_le_pos; [assumption|left; now apply Rinv_0_lt_compat]). set (q := Rabs s12 / b) in *.
  (* the end *)
  unfold Direct_end. cbv zeta. fold f. replace 1.0 with 1 by lra.
  pose proof (sphere_end U l az ss1 cs1 ca0 sg Hcb eq_refl S1 S2 S3 S4) as SE. cbv zeta in SE.
  set (ss2 := ss1 * cos sg + cs1 * sin sg) in *. set (cs2 := cs1 * cos sg - ss1 * sin sg) in *. set (sa0 := sin az * cos U) in *.
  set (cb2 := hypot sa0 (ca0 * cs2)) in *.
  destruct (Req_EM_T cb2 0) as [Z|N].
  - right. apply hypot_eq0 in Z. destruct Z as [Z1 Z2]. rewrite atan2d_eq, rad_deg.
    assert (HS : (ca0 * ss2) ^ 2 = 1).
    { pose proof (alg_2 ss1 cs1 sg S3) as A2. fold ss2 cs2 in A2. pose proof (alg_unit (sin U) (cos U) (sin az) (cos az) ca0 Hb Ha C0 C0s) as AU. fold sa0 in AU. rewrite Z1 in AU.
      replace ((ca0 * ss2) ^ 2) with (ca0 ^ 2 * (ss2 ^ 2 + cs2 ^ 2) - (ca0 * cs2) ^ 2) by ring. rewrite A2, Z2. lra. }
    split; [exact (pole_lat (gd_f1 g) (ca0 * ss2) Ff HS)|]. split; [unfold sa0 in Z1; apply Rmult_integral in Z1; destruct Z1; [assumption|lra]|].
    eapply Rle_trans; [apply (vdist3_triangle _ (pos sg))|].
    assert (PP : pos sg = (0, 0, b * (ca0 * ss2))).
    { destruct (c_rels x1 y1 z1 x2 y2 z2 U1 U2 U12 sg) as (R1 & _). pose proof (c_Z_eq z1 z2 ca0 t1 HZ1 HZ2 sg) as RZ. rewrite sin_plus, C1, D1 in RZ. fold ss2 in RZ. rewrite Rplus_comm in R1 || idtac.
      assert (RZ' : c_Z z1 z2 sg = ca0 * ss2) by (rewrite RZ; unfold ss2; ring). rewrite RZ', HS in R1. assert (X0 : c_X x1 x2 sg = 0) by nra. assert (Y0 : c_Y y1 y2 sg = 0) by nra.
      unfold pos, c_pos, rot. rewrite X0, Y0, RZ', Eb. apply f_equal2; [apply f_equal2|]; ring. }
    pose proof (pos_lip a b c t HG (len sg) s12) as PL. rewrite UP in PL.
    assert (X2 : b * n ^ 7 * (217 + 20 * Rabs sg) <= a * n ^ 7 * (217 + 20 * Rabs sg)) by (apply Rmult_le_compat_r; [lra|]; apply Rmult_le_compat_r; [lra|unfold a, b; lra]).
    assert (X3 : a * n ^ 7 * (217 + 72 * Rabs sg) <= a * n ^ 7 * (300 + 80 * q)) by (apply Rmult_le_compat_l; [nra|lra]).
    assert (X5 : 0 <= a * n ^ 7 * (52 * Rabs sg)) by (apply Rmult_le_pos; [apply Rmult_le_pos; lra|lra]).
    assert (PE : vdist3 (surface_point a b (atan2 (ca0 * ss2) (gd_f1 g * k_tiny)) (radians (AngNormalize (lon1 + degrees (copysign 1 sa0 * (sg - (atan2 ss2 k_tiny - atan2 ss1 cs1) + (atan2 (copysign 1 sa0 * (sa0 * ss2)) k_tiny - atan2 (copysign 1 sa0 * (sa0 * sin U)) (cos az * cos U))) - f * A3f g e * sa0 * (sg + (SinCosSeries true ss2 k_tiny (arr (C3f g e)) (nC3 - 1) - SinCosSeries true ss1 cs1 (arr (C3f g e)) (nC3 - 1)))))))) (pos sg) <= 2 * a * k_tiny).
    { rewrite PP. unfold b. rewrite B. apply pole_point; assumption. }
    lra.
  - left. specialize (SE N). destruct SE as (P2s & P2c & GM & GT).
    set (E := copysign 1 sa0) in *. set (omg := E * (sg - (atan2 ss2 cs2 - atan2 ss1 cs1) + (atan2 (E * (sa0 * ss2)) cs2 - atan2 (E * (sa0 * sin U)) (cos az * cos U)))) in *.
    set (p2 := atan2 (ca0 * ss2) cb2) in *. set (az2 := atan2 sa0 (ca0 * cs2)) in *. rewrite !atan2d_eq, !rad_deg. fold az2.
    set (phi2 := atan2 (ca0 * ss2) (gd_f1 g * cb2)).
    assert (SS : ss2 = sin (t1 + sg)) by (unfold ss2; rewrite sin_plus, C1, D1; ring). assert (CS : cs2 = cos (t1 + sg)) by (unfold cs2; rewrite cos_plus, C1, D1; ring).
    set (dl := A3f g e * (sg + (SinCosSeries true ss2 cs2 (arr (C3f g e)) (nC3 - 1) - SinCosSeries true ss1 cs1 (arr (C3f g e)) (nC3 - 1)))).
    assert (DLs : dl = lser g e (t1 + sg) - lser g e t1) by (unfold dl, lser; rewrite SS, CS, C1, D1; ring).
    replace (f * A3f g e * sa0 * (sg + (SinCosSeries true ss2 cs2 (arr (C3f g e)) (nC3 - 1) - SinCosSeries true ss1 cs1 (arr (C3f g e)) (nC3 - 1)))) with (f * sa0 * dl) by (unfold dl; ring).
    destruct (AngNormalize_congr (lon1 + degrees (omg - f * sa0 * dl))) as [k K].
    assert (LN : radians (AngNormalize (lon1 + degrees (omg - f * sa0 * dl))) = l + omg - f * sa0 * dl + IZR k * (2 * PI)).
    { rewrite K, !radians_plus, rad_deg. unfold l, radians. field. }
    rewrite LN, surface_period, heading_period. clear LN K k.
    (* the exact point for the same arc *)
    assert (HB2 : 0 <= cb2) by apply hypot_nonneg.
    pose proof (at_frame a f x1 y1 z1 x2 y2 z2 ca0 t1 Ap F U1 U2 U12 HZ1 HZ2 sg p2 (l + omg) az2 phi2) as AF. cbv zeta in AF. fold pos tn in AF. rewrite <- Eb in AF.
    assert (TH : c_th f x1 y1 x2 y2 ca0 t1 sg = - (f * sa0 * (lexact f k2 (t1 + sg) - lexact f k2 t1))) by (unfold c_th; rewrite S0, K2; reflexivity).
    set (th := c_th f x1 y1 x2 y2 ca0 t1 sg) in *.
    assert (GX : L_vincenty4.gc_move U l az sg = (c_X x1 x2 sg, c_Y y1 y2 sg, c_Z z1 z2 sg)).
    { unfold L_vincenty4.gc_move, c_X, c_Y, c_Z, x1, x2, y1, y2, z1, z2, unit_normal, north_axis, east_axis, vadd, vscale. apply f_equal2; [apply f_equal2|]; ring. }
    assert (GV : gc_tangent U l az sg = (c_X' x1 x2 sg, c_Y' y1 y2 sg, c_Z' z1 z2 sg)).
    { unfold gc_tangent, c_X', c_Y', c_Z', x1, x2, y1, y2, z1, z2, unit_normal, north_axis, east_axis, vadd, vscale. apply f_equal2; [apply f_equal2|]; ring. }
    pose proof (c_u_pos f ca0 t1 F sg) as Up. set (u := c_u f ca0 t1 sg) in *.
    assert (Hu : hypot (gd_f1 g * cb2) (ca0 * ss2) = u).
    { apply hypot_uniq; [lra|]. replace (u * u) with (u ^ 2) by ring. unfold u. rewrite (c_u_sq f z1 z2 ca0 t1 F HZ1 HZ2 sg), (c_Z_eq z1 z2 ca0 t1 HZ1 HZ2 sg), <- SS.
      pose proof (alg_lat (sin U) (cos U) (sin az) (cos az) ss1 cs1 sg ca0 Hb Ha C0 C0s S3) as AL2. fold ss2 cs2 in AL2. fold sa0 in AL2. fold cb2 in AL2.
      rewrite F1. replace (((1 - f) * cb2) ^ 2) with ((1 - f) ^ 2 * cb2 ^ 2) by ring. replace (cb2 ^ 2) with (1 - (ca0 * ss2) ^ 2) by lra. ring. }
    pose proof (hypot_cos_atan2 (ca0 * ss2) (gd_f1 g * cb2)) as PC. pose proof (hypot_sin_atan2 (ca0 * ss2) (gd_f1 g * cb2)) as PS. rewrite Hu in PC, PS. fold phi2 in PC, PS.
    destruct AF as [AP AT].
    { rewrite <- GX. exact GM. } { rewrite <- GV. exact GT. } { rewrite PS, P2s. reflexivity. } { rewrite PC, P2c, F1. reflexivity. }
    set (lam2 := l + omg - f * sa0 * dl).
    pose proof (longitude_series g k2 O Hk ltac:(unfold n in Hn; lra) He t1 (t1 + sg)) as LS. fold f e n in LS. rewrite <- DLs in LS. replace (t1 + sg - t1) with sg in LS by ring.
    assert (DL : Rabs (lam2 - (l + omg + th)) <= 52 * n ^ 7 * Rabs sg).
    { rewrite TH. unfold lam2. replace (l + omg - f * sa0 * dl - (l + omg + - (f * sa0 * (lexact f k2 (t1 + sg) - lexact f k2 t1)))) with (- (f * sa0) * (dl - (lexact f k2 (t1 + sg) - lexact f k2 t1))) by ring.
      rewrite Rabs_mult, Rabs_Ropp, Rabs_mult, (Rabs_right f) by lra.
      assert (Sa : Rabs sa0 <= 1) by (unfold sa0; rewrite Rabs_mult; pose proof (sin_abs1 az); pose proof (cos_abs1 U); pose proof (Rabs_pos (sin az)); pose proof (Rabs_pos (cos U)); nra).
      assert (Fn : f <= 2 * n). { unfold n. rewrite En. fold f. apply Rmult_le_reg_r with (2 - f); [lra|]. replace (2 * (f / (2 - f)) * (2 - f)) with (2 * f) by (field; lra). nra. }
      replace (52 * n ^ 7 * Rabs sg) with ((2 * n) * (26 * n ^ 6 * Rabs sg)) by ring.
      apply Rmult_le_compat; try apply Rabs_pos; [apply Rmult_le_pos; [lra|apply Rabs_pos]| |exact LS]. pose proof (Rabs_pos sa0). nra. }
    split.
    + eapply Rle_trans; [apply (vdist3_triangle _ (pos sg))|]. pose proof (surface_close a b phi2 (l + omg + th) lam2 Bp Ap) as SC. rewrite <- AP in SC.
      pose proof (pos_lip a b c t HG (len sg) s12) as PL. rewrite UP in PL.
      assert (X1 : a * Rabs (lam2 - (l + omg + th)) <= a * (52 * n ^ 7 * Rabs sg)) by (apply Rmult_le_compat_l; lra).
      assert (X2 : b * n ^ 7 * (217 + 20 * Rabs sg) <= a * n ^ 7 * (217 + 20 * Rabs sg)) by (apply Rmult_le_compat_r; [lra|]; apply Rmult_le_compat_r; [lra|unfold a, b; lra]).
      assert (X3 : a * n ^ 7 * (217 + 72 * Rabs sg) <= a * n ^ 7 * (300 + 80 * q)) by (apply Rmult_le_compat_l; [nra|lra]). lra.
    + eapply Rle_trans; [apply (vdist3_triangle _ (tn sg))|]. pose proof (heading_close phi2 az2 (l + omg + th) lam2) as SC. rewrite <- AT in SC.
      pose proof (tan_lip a b c t Hab HG (len sg) s12) as PL. rewrite UT in PL.
      assert (Y : a ^ 3 / b ^ 4 * Rabs (len sg - s12) <= 104 / 100 * (n ^ 7 * (217 + 20 * Rabs sg))).
      { apply Rle_trans with (a ^ 3 / b ^ 4 * (b * n ^ 7 * (217 + 20 * Rabs sg))).
        - apply Rmult_le_compat_l; [|exact DLEN]. apply Rmult_le_pos; [apply pow_le; lra|left; apply Rinv_0_lt_compat; apply pow_lt; lra].
        - replace (a ^ 3 / b ^ 4 * (b * n ^ 7 * (217 + 20 * Rabs sg))) with ((a / b) ^ 3 * (n ^ 7 * (217 + 20 * Rabs sg))) by (field; lra).
          apply Rmult_le_compat_r; [apply Rmult_le_pos; lra|]. replace (a / b) with (/ (1 - f)) by (rewrite Eb; field; lra).
          apply Rle_trans with ((100 / 99) ^ 3); [|lra]. apply pow_incr. split; [left; apply Rinv_0_lt_compat; lra|]. replace (100 / 99) with (/ (99 / 100)) by lra. apply Rinv_le_contravar; lra. }
      assert (X3 : n ^ 7 * (226 + 73 * Rabs sg) <= n ^ 7 * (300 + 80 * q)) by (apply Rmult_le_compat_l; lra). nra.
Qed.
