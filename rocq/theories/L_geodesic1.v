(** The exact geodesic over a great circle of the auxiliary sphere. *)
From Coq Require Import Reals Lra Lia Psatz.
From Coquelicot Require Import Coquelicot.
From Verif Require Import PyMath M_karney L_PyMath L_karney L_karney5 L_series1 L_series3 Spec Spec_geodesic.
Open Scope R_scope.

Section Curve.
Variables (a f x1 y1 z1 x2 y2 z2 c0 s1 : R).
Hypothesis Ha : 0 < a.
Hypothesis Hf : 0 <= f < 1.
Hypothesis U1 : x1 ^ 2 + y1 ^ 2 + z1 ^ 2 = 1.
Hypothesis U2 : x2 ^ 2 + y2 ^ 2 + z2 ^ 2 = 1.
Hypothesis U12 : x1 * x2 + y1 * y2 + z1 * z2 = 0.
Hypothesis HZ1 : z1 = c0 * sin s1.
Hypothesis HZ2 : z2 = c0 * cos s1.
Definition c_s0 : R := x1 * y2 - y1 * x2.
Definition c_k2 : R := c0 ^ 2 * (f * (2 - f) / (1 - f) ^ 2).
Definition c_X s := x1 * cos s + x2 * sin s.
Definition c_Y s := y1 * cos s + y2 * sin s.
Definition c_Z s := z1 * cos s + z2 * sin s.
Definition c_X' s := x2 * cos s - x1 * sin s.
Definition c_Y' s := y2 * cos s - y1 * sin s.
Definition c_Z' s := z2 * cos s - z1 * sin s.
Definition c_u s := (1 - f) * sqrt (1 + c_k2 * sin (s1 + s) ^ 2).
Definition c_g s := f * (2 - f) * c_s0 / (1 + c_u s).
Definition c_th s := - (f * c_s0 * (lexact f c_k2 (s1 + s) - lexact f c_k2 s1)).
Definition rot (th : R) (p : vec3) : vec3 := let '(x, y, z) := p in (cos th * x - sin th * y, sin th * x + cos th * y, z).
Definition c_pos s : vec3 := rot (c_th s) (a * c_X s, a * c_Y s, a * (1 - f) * c_Z s).
Definition c_tan s : vec3 := rot (c_th s) ((c_X' s + c_g s * c_Y s) / c_u s, (c_Y' s - c_g s * c_X s) / c_u s, (1 - f) * c_Z' s / c_u s).
Definition c_mu s := (1 - f) ^ 2 * (1 - f * (2 - f) * c_s0 ^ 2) / c_u s ^ 3.

Lemma c_k2_pos : 0 <= c_k2.
Proof. unfold c_k2. apply Rmult_le_pos; [apply pow2_ge_0|]. apply Rmult_le_pos; [nra|]. left. apply Rinv_0_lt_compat. nra. Qed.
Lemma c_rad_pos s : 1 <= 1 + c_k2 * sin (s1 + s) ^ 2.
Proof. pose proof c_k2_pos. pose proof (pow2_ge_0 (sin (s1 + s))). nra. Qed.
Lemma c_u_pos s : 1 - f <= c_u s.
Proof.
  unfold c_u. pose proof (c_rad_pos s). assert (1 <= sqrt (1 + c_k2 * sin (s1 + s) ^ 2)) by (rewrite <- sqrt_1 at 1; apply sqrt_le_1; lra). nra.
Qed.
Lemma c_rels s : c_X s ^ 2 + c_Y s ^ 2 + c_Z s ^ 2 = 1 /\ c_X' s ^ 2 + c_Y' s ^ 2 + c_Z' s ^ 2 = 1 /\
  c_X s * c_X' s + c_Y s * c_Y' s + c_Z s * c_Z' s = 0 /\ c_X s * c_Y' s - c_Y s * c_X' s = c_s0.
Proof.
  unfold c_X, c_Y, c_Z, c_X', c_Y', c_Z', c_s0. pose proof (sc1 s) as Q. set (C := cos s) in *. set (S := sin s) in *.
  assert (Q' : S ^ 2 = 1 - C ^ 2) by nra. assert (W1 : z1 ^ 2 = 1 - x1 ^ 2 - y1 ^ 2) by lra. assert (W2 : z2 ^ 2 = 1 - x2 ^ 2 - y2 ^ 2) by lra.
  assert (W12 : z1 * z2 = - x1 * x2 - y1 * y2) by lra.
  split; [|split; [|split]]; ring [Q' W1 W2 W12].
Qed.
Lemma c_Z_eq s : c_Z s = c0 * sin (s1 + s).
Proof. unfold c_Z. rewrite HZ1, HZ2, sin_plus. ring. Qed.
Lemma c_Z'_eq s : c_Z' s = c0 * cos (s1 + s).
Proof. unfold c_Z'. rewrite HZ1, HZ2, cos_plus. ring. Qed.
Lemma c_s0_sq : c_s0 ^ 2 = 1 - c0 ^ 2.
Proof.
  assert (C0 : c0 ^ 2 = z1 ^ 2 + z2 ^ 2) by (rewrite HZ1, HZ2; pose proof (sc1 s1); nra). rewrite C0.
  unfold c_s0. replace ((x1 * y2 - y1 * x2) ^ 2) with ((x1 ^ 2 + y1 ^ 2) * (x2 ^ 2 + y2 ^ 2) - (x1 * x2 + y1 * y2) ^ 2) by ring.
  replace (x1 ^ 2 + y1 ^ 2) with (1 - z1 ^ 2) by lra. replace (x2 ^ 2 + y2 ^ 2) with (1 - z2 ^ 2) by lra. replace (x1 * x2 + y1 * y2) with (- z1 * z2) by lra. ring.
Qed.
Lemma c_u_sq s : c_u s ^ 2 = 1 - f * (2 - f) * (1 - c_Z s ^ 2).
Proof.
  unfold c_u. rewrite Rpow_mult_distr. rewrite <- (Rsqr_pow2 (sqrt _)), Rsqr_sqrt by (pose proof (c_rad_pos s); lra). rewrite c_Z_eq. unfold c_k2. field. lra.
Qed.
Lemma c_g_H s : c_g s * (1 - c_Z s ^ 2) = c_s0 * (1 - c_u s).
Proof.
  pose proof (c_u_pos s). unfold c_g. pose proof (c_u_sq s) as Q. apply Rmult_eq_reg_r with (1 + c_u s); [|lra].
  replace (f * (2 - f) * c_s0 / (1 + c_u s) * (1 - c_Z s ^ 2) * (1 + c_u s)) with (c_s0 * (f * (2 - f) * (1 - c_Z s ^ 2))) by (field; lra).
  replace (f * (2 - f) * (1 - c_Z s ^ 2)) with (1 - c_u s ^ 2) by lra. ring.
Qed.
Lemma c_ZZ s : c_Z s ^ 2 + c_Z' s ^ 2 = 1 - c_s0 ^ 2.
Proof. rewrite c_s0_sq, c_Z_eq, c_Z'_eq. pose proof (sc1 (s1 + s)). nra. Qed.
Lemma c_unit s : is_unit (c_tan s).
Proof.
  unfold is_unit, c_tan, rot, vdot. pose proof (c_u_pos s) as U. destruct (c_rels s) as (R1 & R2 & R3 & R4). pose proof (c_ZZ s) as R5. pose proof (c_u_sq s) as R6. pose proof (c_g_H s) as R7.
  pose proof (sc1 (c_th s)) as Q. assert (G : c_g s * (1 + c_u s) = f * (2 - f) * c_s0) by (unfold c_g; field; lra).
  set (X := c_X s) in *. set (Y := c_Y s) in *. set (Z := c_Z s) in *. set (X' := c_X' s) in *. set (Y' := c_Y' s) in *. set (Z' := c_Z' s) in *. set (u := c_u s) in *. set (g := c_g s) in *. set (th := c_th s) in *.
  apply Rmult_eq_reg_r with (u ^ 2); [|apply pow_nonzero; lra].
  match goal with |- ?l = _ => replace l with ((sin th * sin th + cos th * cos th) * ((X' + g * Y) ^ 2 + (Y' - g * X) ^ 2) + (1 - f) ^ 2 * Z' ^ 2) by (field; lra) end.
  rewrite Q. replace ((X' + g * Y) ^ 2 + (Y' - g * X) ^ 2) with ((X' ^ 2 + Y' ^ 2) - 2 * g * (X * Y' - Y * X') + g ^ 2 * (X ^ 2 + Y ^ 2)) by ring.
  rewrite R4. replace (X' ^ 2 + Y' ^ 2) with (1 - Z' ^ 2) by lra. replace (X ^ 2 + Y ^ 2) with (1 - Z ^ 2) by lra.
  replace (g ^ 2 * (1 - Z ^ 2)) with (g * (g * (1 - Z ^ 2))) by ring. rewrite R7. replace (Z' ^ 2) with (1 - c_s0 ^ 2 - Z ^ 2) by lra.
  rewrite !Rmult_1_l, R6.
  match goal with |- ?l = _ => replace l with (1 - c_s0 * (g * (1 + u)) - f * (2 - f) * (1 - c_s0 ^ 2 - Z ^ 2)) by ring end.
  rewrite G. ring.
Qed.
Lemma c_on s : on_ellipsoid a (a * (1 - f)) (c_pos s).
Proof.
  unfold on_ellipsoid, c_pos, rot. destruct (c_rels s) as (R1 & _). pose proof (sc1 (c_th s)) as Q. set (th := c_th s) in *.
  transitivity ((sin th * sin th + cos th * cos th) * (c_X s ^ 2 + c_Y s ^ 2) + c_Z s ^ 2); [field; lra|]. rewrite Q. lra.
Qed.
Lemma c_th_derive s : is_derive c_th s (- c_g s).
Proof.
  unfold c_th. pose proof (lexact_derive f c_k2 (s1 + s) Hf c_k2_pos) as L.
  evar (d : R). replace (- c_g s) with d; [unfold d; auto_derive; [exists (lint f c_k2 (s1 + s)); exact L|reflexivity]|].
  unfold d. replace (Derive (fun x : R => lexact f c_k2 x) (s1 + s)) with (lint f c_k2 (s1 + s)) by (symmetry; exact (is_derive_unique _ _ _ L)). unfold c_g, lint, c_u. pose proof (lint_den f c_k2 (s1 + s) Hf). field. lra.
Qed.
Definition c_u' s := f * (2 - f) * c_Z s * c_Z' s / c_u s.
Lemma c_u_derive s : is_derive c_u s (c_u' s).
Proof.
  pose proof (c_rad_pos s) as P. pose proof (c_u_pos s) as U. unfold c_u', c_u.
  evar (d : R). match goal with |- is_derive _ _ ?e => replace e with d; [unfold d; auto_derive; [cbn [pow] in P; lra|reflexivity]|] end.
  unfold d. replace (1 + c_k2 * (sin (s1 + s) * (sin (s1 + s) * 1))) with (1 + c_k2 * sin (s1 + s) ^ 2) by ring.
  rewrite c_Z_eq, c_Z'_eq. assert (0 < sqrt (1 + c_k2 * sin (s1 + s) ^ 2)) by (apply sqrt_lt_R0; lra). unfold c_k2 at 1. cbn [Init.Nat.pred]. field. repeat split; lra.
Qed.
Lemma c_g_derive s : is_derive c_g s (- c_g s * c_u' s / (1 + c_u s)).
Proof.
  pose proof (c_u_derive s) as D. pose proof (c_u_pos s) as U. unfold c_g.
  evar (d : R). match goal with |- is_derive _ _ ?e => replace e with d; [unfold d; auto_derive; [split; [exists (c_u' s); exact D|split; [lra|exact I]]|reflexivity]|] end.
  unfold d. replace (Derive (fun x : R => c_u x) s) with (c_u' s) by (symmetry; exact (is_derive_unique _ _ _ D)). field. lra.
Qed.
Lemma vderive_is c s v : is_derive (fun x => fst (fst (c x))) s (fst (fst v)) -> is_derive (fun x => snd (fst (c x))) s (snd (fst v)) -> is_derive (fun x => snd (c x)) s (snd v) -> vderive c s v.
Proof. intros. repeat split; apply is_derive_Reals; assumption. Qed.
Lemma c_pos_derive s : vderive c_pos s (vscale (a * c_u s) (c_tan s)).
Proof.
  pose proof (c_th_derive s) as D. pose proof (c_u_pos s) as U. assert (Dt : Derive (fun x : R => c_th x) s = - c_g s) by exact (is_derive_unique _ _ _ D).
  apply vderive_is; cbn [c_pos c_tan rot vscale fst snd].
  - unfold c_X, c_Y. evar (d : R). match goal with |- is_derive _ _ ?e => replace e with d; [unfold d; auto_derive; [repeat split; exists (- c_g s); exact D|reflexivity]|] end.
    unfold d. rewrite Dt. fold (c_X s) (c_Y s). unfold c_X', c_Y'. fold (c_X s) (c_Y s). unfold c_X, c_Y. field. lra.
  - unfold c_X, c_Y. evar (d : R). match goal with |- is_derive _ _ ?e => replace e with d; [unfold d; auto_derive; [repeat split; exists (- c_g s); exact D|reflexivity]|] end.
    unfold d. rewrite Dt. unfold c_X', c_Y', c_X, c_Y. field. lra.
  - unfold c_Z. evar (d : R). match goal with |- is_derive _ _ ?e => replace e with d; [unfold d; auto_derive; [exact I|reflexivity]|] end.
    unfold d, c_Z'. field. lra.
Qed.
(** the two horizontal components of the acceleration in the rotating frame *)
Lemma c_alg s : let X := c_X s in let Y := c_Y s in let X' := c_X' s in let Y' := c_Y' s in let u := c_u s in let g := c_g s in let u' := c_u' s in
  let g' := - g * u' / (1 + u) in
  (- X + (g' * Y + g * Y')) / u - (X' + g * Y) * u' / u ^ 2 + g * ((Y' - g * X) / u) = - c_mu s * X /\
  (- Y - (g' * X + g * X')) / u - (Y' - g * X) * u' / u ^ 2 - g * ((X' + g * Y) / u) = - c_mu s * Y.
Proof.
  intros X Y X' Y' u g u' g'. pose proof (c_u_pos s) as U. destruct (c_rels s) as (R1 & R2 & R3 & R4). pose proof (c_ZZ s) as R5. pose proof (c_u_sq s) as R6. pose proof (c_g_H s) as R7.
  assert (G : g * (1 + u) = f * (2 - f) * c_s0) by (unfold g, c_g; fold u; field; unfold u; lra).
  unfold g', u', c_u', c_mu. fold u. fold X Y X' Y' in R1, R2, R3, R4. fold u in R6, R7, U. fold g in R7. set (Z := c_Z s) in *. set (Z' := c_Z' s) in *.
  destruct (Req_dec (1 - Z ^ 2) 0) as [E|N].
  - assert (X0 : X = 0) by nra. assert (Y0 : Y = 0) by nra. assert (S0 : c_s0 = 0) by (rewrite X0, Y0 in R4; lra).
    assert (Zp : Z' = 0) by (rewrite S0 in R5; nra). assert (g0 : g = 0) by (rewrite S0 in G; apply Rmult_eq_reg_r with (1 + u); lra).
    rewrite X0, Y0, g0, Zp. split; field; lra.
  - set (H := 1 - Z ^ 2) in *. assert (E2 : f * (2 - f) = (1 - u ^ 2) / H) by (rewrite R6; field; exact N).
    assert (gE : g = c_s0 * (1 - u) / H) by (rewrite <- R7; field; exact N).
    assert (XE : X' = (- X * (Z * Z') - c_s0 * Y) / H).
    { replace (- X * (Z * Z') - c_s0 * Y) with (X' * (X ^ 2 + Y ^ 2)); [replace (X ^ 2 + Y ^ 2) with H by (unfold H; lra); field; exact N|].
      rewrite <- R4. replace (Z * Z') with (- (X * X') - Y * Y') by lra. ring. }
    assert (YE : Y' = (- Y * (Z * Z') + c_s0 * X) / H).
    { replace (- Y * (Z * Z') + c_s0 * X) with (Y' * (X ^ 2 + Y ^ 2)); [replace (X ^ 2 + Y ^ 2) with H by (unfold H; lra); field; exact N|].
      rewrite <- R4. replace (Z * Z') with (- (X * X') - Y * Y') by lra. ring. }
    replace ((1 - f) ^ 2) with (1 - f * (2 - f)) by ring. rewrite E2, XE, YE, gE.
    assert (W2 : (Z * Z') ^ 2 = (1 - H) * (H - c_s0 ^ 2)).
    { replace (H - c_s0 ^ 2) with (Z' ^ 2) by (unfold H; lra). unfold H. ring. }
    replace ((1 - u ^ 2) / H * Z * Z') with ((1 - u ^ 2) / H * (Z * Z')) by ring. set (W := Z * Z') in *. clearbody W X Y H u. clear - N U Hf W2.
    split; apply Rminus_diag_uniq.
    + match goal with |- ?l = 0 => replace l with (X * (1 - u ^ 2) * (W ^ 2 - (1 - H) * (H - c_s0 ^ 2)) / (H ^ 2 * u ^ 3)) by (field; repeat split; lra) end. rewrite W2. unfold Rdiv. ring.
    + match goal with |- ?l = 0 => replace l with (Y * (1 - u ^ 2) * (W ^ 2 - (1 - H) * (H - c_s0 ^ 2)) / (H ^ 2 * u ^ 3)) by (field; repeat split; lra) end. rewrite W2. unfold Rdiv. ring.
Qed.
Lemma c_tan_derive s : vderive c_tan s (vscale (- c_mu s * a) (gradient a (a * (1 - f)) (c_pos s))).
Proof.
  pose proof (c_th_derive s) as D. pose proof (c_u_derive s) as Du. pose proof (c_g_derive s) as Dg. pose proof (c_u_pos s) as U.
  assert (Et : Derive (fun x : R => c_th x) s = - c_g s) by exact (is_derive_unique _ _ _ D).
  assert (Eu : Derive (fun x : R => c_u x) s = c_u' s) by exact (is_derive_unique _ _ _ Du).
  assert (Eg : Derive (fun x : R => c_g x) s = - c_g s * c_u' s / (1 + c_u s)) by exact (is_derive_unique _ _ _ Dg).
  assert (Xt : ex_derive c_th s) by (eexists; exact D). assert (Xu : ex_derive c_u s) by (eexists; exact Du). assert (Xg : ex_derive c_g s) by (eexists; exact Dg).
  destruct (c_alg s) as [A1 A2]. apply vderive_is; cbn [c_pos c_tan rot gradient vscale fst snd].
  - unfold c_X', c_Y', c_X, c_Y. evar (d : R). match goal with |- is_derive _ _ ?e => replace e with d; [unfold d; auto_derive; [repeat (split; [first [assumption | lra | exact I]|]); first [assumption | lra | exact I]|reflexivity]|] end.
    unfold d. rewrite Et, Eu, Eg. fold (c_X s) (c_Y s).
    replace (- c_mu s * a * ((cos (c_th s) * (a * c_X s) - sin (c_th s) * (a * c_Y s)) / a ^ 2)) with (cos (c_th s) * (- c_mu s * c_X s) - sin (c_th s) * (- c_mu s * c_Y s)) by (field; lra).
    rewrite <- A1, <- A2. unfold c_X', c_Y'. unfold c_X, c_Y. field. repeat split; lra.
  - unfold c_X', c_Y', c_X, c_Y. evar (d : R). match goal with |- is_derive _ _ ?e => replace e with d; [unfold d; auto_derive; [repeat (split; [first [assumption | lra | exact I]|]); first [assumption | lra | exact I]|reflexivity]|] end.
    unfold d. rewrite Et, Eu, Eg. fold (c_X s) (c_Y s).
    replace (- c_mu s * a * ((sin (c_th s) * (a * c_X s) + cos (c_th s) * (a * c_Y s)) / a ^ 2)) with (sin (c_th s) * (- c_mu s * c_X s) + cos (c_th s) * (- c_mu s * c_Y s)) by (field; lra).
    rewrite <- A1, <- A2. unfold c_X', c_Y'. unfold c_X, c_Y. field. repeat split; lra.
  - unfold c_Z'. evar (d : R). match goal with |- is_derive _ _ ?e => replace e with d; [unfold d; auto_derive; [repeat (split; [first [assumption | lra | exact I]|]); first [assumption | lra | exact I]|reflexivity]|] end.
    unfold d. rewrite Eu. unfold c_mu, c_u'. pose proof (c_ZZ s) as R5. pose proof (c_u_sq s) as R6. fold (c_Z' s).
    apply Rmult_eq_reg_r with (c_u s ^ 3); [|apply pow_nonzero; lra].
    match goal with |- ?l = ?r => replace r with (- (1 - f) * (1 - f * (2 - f) * c_s0 ^ 2) * c_Z s) by (field; lra); replace l with (- (1 - f) * c_Z s * (c_u s ^ 2 + f * (2 - f) * c_Z' s ^ 2)) by (unfold c_Z, c_Z'; field; repeat split; lra) end.
    rewrite R6. replace (c_Z' s ^ 2) with (1 - c_s0 ^ 2 - c_Z s ^ 2) by lra. ring.
Qed.
(** arc length *)
Definition c_len s : R := a * (1 - f) * (dexact c_k2 (s1 + s) - dexact c_k2 s1).
Lemma c_len_derive s : is_derive c_len s (a * c_u s).
Proof.
  unfold c_len. pose proof (dexact_derive c_k2 (s1 + s) c_k2_pos) as L.
  evar (d : R). match goal with |- is_derive _ _ ?e => replace e with d; [unfold d; auto_derive; [eexists; exact L|reflexivity]|] end.
  unfold d. replace (Derive (fun x : R => dexact c_k2 x) (s1 + s)) with (sqrt (1 + c_k2 * sin (s1 + s) ^ 2)) by (symmetry; exact (is_derive_unique _ _ _ L)). unfold c_u. ring.
Qed.
Lemma c_len_0 : c_len 0 = 0.
Proof. unfold c_len. rewrite Rplus_0_r. ring. Qed.
End Curve.
(** Inverse of an increasing function with derivative bounded below. *)
Section Inverse.
Variables (D w : R -> R) (m : R).
Hypothesis Hm : 0 < m.
Hypothesis HD : forall s, is_derive D s (w s).
Hypothesis Hw : forall s, m <= w s.
Hypothesis Hc : forall s, continuous w s.
Lemma inv_mvt x y : exists c, Rmin x y <= c <= Rmax x y /\ D y - D x = w c * (y - x).
Proof.
  destruct (MVT_gen D x y w) as (c & I & E).
  - intros t _. apply HD.
  - intros t _. apply derivable_continuous_pt. exists (w t). apply is_derive_Reals, HD.
  - exists c. auto.
Qed.
Lemma inv_ex s : { t | D t = s }.
Proof.
  set (B := Rabs (s - D 0) / m + 1). assert (HB : 0 < B) by (unfold B; pose proof (Rabs_pos (s - D 0)); assert (0 <= Rabs (s - D 0) / m) by (apply Rmult_le_pos; [assumption|left; now apply Rinv_0_lt_compat]); lra).
  assert (HmB : Rabs (s - D 0) < m * B) by (unfold B; replace (m * (Rabs (s - D 0) / m + 1)) with (Rabs (s - D 0) + m) by (field; lra); lra).
  pose proof (Rle_abs (s - D 0)) as A1. pose proof (Rle_abs (- (s - D 0))) as A2. rewrite Rabs_Ropp in A2.
  assert (Ct : continuity (fun t => D t - s)).
  { intros t. apply derivable_continuous_pt. exists (w t). apply is_derive_Reals. replace (w t) with (minus (w t) 0) by (unfold minus, plus, opp; cbn; ring).
    apply (is_derive_minus (V := R_NormedModule) D (fun _ => s)); [apply HD|apply (is_derive_const (V := R_NormedModule))]. }
  destruct (IVT_cor (fun t => D t - s) (- B) B Ct) as (z & _ & Z); [lra| |exists z; lra].
  destruct (inv_mvt (- B) 0) as (c1 & _ & E1). destruct (inv_mvt 0 B) as (c2 & _ & E2). pose proof (Hw c1). pose proof (Hw c2).
  assert (L1 : D (- B) - s <= 0) by nra. assert (L2 : 0 <= D B - s) by nra.
  replace ((D (- B) - s) * (D B - s)) with (- ((s - D (- B)) * (D B - s))) by ring. assert (0 <= (s - D (- B)) * (D B - s)) by (apply Rmult_le_pos; lra). lra.
Qed.
Definition inv_of (s : R) : R := proj1_sig (inv_ex s).
Lemma inv_val s : D (inv_of s) = s.
Proof. unfold inv_of. destruct (inv_ex s) as [t E]. exact E. Qed.
Lemma inv_lip x y : Rabs (inv_of y - inv_of x) <= Rabs (y - x) / m.
Proof.
  destruct (inv_mvt (inv_of x) (inv_of y)) as (c & _ & E). rewrite !inv_val in E. rewrite E, Rabs_mult. pose proof (Hw c).
  rewrite (Rabs_right (w c)) by lra. apply Rmult_le_reg_r with m; [exact Hm|]. unfold Rdiv. rewrite Rmult_assoc, Rinv_l by lra. pose proof (Rabs_pos (inv_of y - inv_of x)). nra.
Qed.
Lemma inv_inj x y : D x = D y -> x = y.
Proof. intros E. destruct (inv_mvt x y) as (c & _ & M). pose proof (Hw c). assert (Q : w c * (y - x) = 0) by lra. apply Rmult_integral in Q. destruct Q; lra. Qed.
Lemma inv_derive s : is_derive inv_of s (/ w (inv_of s)).
Proof.
  apply is_derive_Reals. intros eps He. pose proof (Hw (inv_of s)) as W.
  assert (Cc : continuous (fun t => / w t) (inv_of s)) by (apply (continuous_Rinv_comp w); [apply Hc|lra]).
  apply continuity_pt_filterlim in Cc. destruct (Cc eps He) as (al & Al & K). cbn in K. unfold R_dist in K.
  assert (Dp : 0 < m * al) by nra. exists (mkposreal (m * al) Dp). intros h Hh Hlt. cbn in Hlt.
  destruct (inv_mvt (inv_of s) (inv_of (s + h))) as (c & I & E). rewrite !inv_val in E. replace (s + h - s) with h in E by ring. pose proof (Hw c) as Wc.
  assert (Q : (inv_of (s + h) - inv_of s) / h = / w c).
  { assert (N : inv_of (s + h) - inv_of s <> 0) by (intros Z; rewrite Z in E; lra).
    set (y := inv_of (s + h) - inv_of s) in *. clearbody y. rewrite E. field. split; lra. }
  rewrite Q. destruct (Req_dec c (inv_of s)) as [->|Nc]; [rewrite Rminus_diag_eq by reflexivity; rewrite Rabs_R0; exact He|].
  apply K. split; [split; [exact Logic.I|congruence]|].
  pose proof (inv_lip s (s + h)) as L. replace (s + h - s) with h in L by ring.
  assert (L' : Rabs h / m < al) by (apply Rmult_lt_reg_r with m; [exact Hm|]; unfold Rdiv; rewrite Rmult_assoc, Rinv_l by lra; lra).
  assert (Rabs (c - inv_of s) <= Rabs (inv_of (s + h) - inv_of s)); [|lra].
  clear - I. unfold Rmin, Rmax in I. destruct (Rle_dec (inv_of s) (inv_of (s + h))); unfold Rabs; repeat destruct (Rcase_abs _); lra.
Qed.
End Inverse.
