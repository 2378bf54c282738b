(** Two geodesics from the same point whose ends are close set out in nearly the same
    direction. *)
From Coq Require Import Reals Ratan Lra Lia Psatz.
From Coquelicot Require Import Coquelicot.
From Verif Require Import PyMath Spec Spec_geodesic L_PyMath L_geodesic1 L_geodesic2 L_geodesic3 L_geodesic4 L_geodesic7 L_short1 L_short2 L_short3 L_short4 L_short5 L_short6 L_short7.
From Verif Require L_vincenty2 L_nvector L_vin2 L_vin3 L_series2 L_aer.
Open Scope R_scope.

Lemma pi_hi314 : 314 / 100 < PI.
Proof.
  apply Rnot_le_lt; intros X. pose proof PI2_3_2 as P. assert (C : 0 < cos (157 / 100)).
  { replace (157 / 100) with (2 * (785 / 1000)) by lra. rewrite cos_2a_sin. destruct (L_series2.sin_taylor (785 / 1000)) as (th & Th & E). apply Rabs_le_between in Th.
    assert (S : 0 <= sin (785 / 1000) <= 7070 / 10000) by (rewrite E; lra). nra. }
  pose proof (cos_le_0 (157 / 100) ltac:(lra) ltac:(lra)). lra.
Qed.
Lemma sin_288 s : 0 < s <= 29 / 10 -> 0 < sin s /\ s <= 14 * sin s.
Proof.
  intros Hs. pose proof pi_hi314 as PG. pose proof pi_lt as PL. destruct (Rle_dec s (17 / 10)) as [A|A]; [pose proof (sin_ge_half s ltac:(lra)); lra|].
  rewrite <- sin_PI_x. assert (Q : sin (22 / 100) <= sin (PI - s)) by (apply sin_incr_1; lra).
  destruct (L_series2.sin_taylor (22 / 100)) as (th & Th & Es). apply Rabs_le_between in Th. rewrite Es in Q. lra.
Qed.
Lemma cauchy3 a b c x y z : (a * x + b * y + c * z) ^ 2 <= (a ^ 2 + b ^ 2 + c ^ 2) * (x ^ 2 + y ^ 2 + z ^ 2).
Proof. pose proof (pow2_ge_0 (a * y - b * x)). pose proof (pow2_ge_0 (a * z - c * x)). pose proof (pow2_ge_0 (b * z - c * y)). lra. Qed.
Lemma abs_of_sq x r : 0 <= r -> x ^ 2 <= r ^ 2 -> Rabs x <= r.
Proof. intros R0 H. rewrite <- (pow2_abs x) in H. pose proof (Rabs_pos x). nra. Qed.
Lemma vdist_sq p q : vdist3 p q ^ 2 = (fst (fst p) - fst (fst q)) ^ 2 + (snd (fst p) - snd (fst q)) ^ 2 + (snd p - snd q) ^ 2.
Proof. destruct p as [[x y] z], q as [[x' y'] z']. unfold vdist3, vnorm, vdot, vsub. cbn [fst snd]. rewrite pow2_sqrt; [ring|]. pose proof (Rle_0_sqr (x - x')). pose proof (Rle_0_sqr (y - y')). pose proof (Rle_0_sqr (z - z')). unfold Rsqr in *. lra. Qed.
Lemma vdist_pos p q : 0 <= vdist3 p q. Proof. unfold vdist3, vnorm. apply sqrt_pos. Qed.
Section Dir.
Variables (e2 x1 y1 z1 : R).
Hypothesis He : 0 <= e2 <= 2 / 100.
Hypothesis P1 : x1 ^ 2 + y1 ^ 2 + z1 ^ 2 = 1.
Definition Kv (p : vec3) : R := Kq e2 x1 y1 z1 (fst (fst p)) (snd (fst p)) (snd p).
Notation sqv p := (unit_angle (x1, y1, z1) p).
Lemma unit_onS p : is_unit p -> onS (fst (fst p)) (snd (fst p)) (snd p).
Proof. destruct p as [[x y] z]. unfold is_unit, vdot, onS. cbn [fst snd]. lra. Qed.
(** ** The turn of the auxiliary sphere changes slowly with the point *)
Lemma K_local g t0 : (forall x, is_unit (g x)) -> (forall x y, vdist3 (g x) (g y) <= Rabs (x - y)) -> 0 < sqv (g t0) <= 29 / 10 ->
  exists del, 0 < del /\ forall t, Rabs (t - t0) < del -> Rabs (Kv (g t) - Kv (g t0)) <= / 2 * Rabs (t - t0).
Proof.
  intros Ug Lg Hs. set (N := fun t : R => Rabs (t - t0)). assert (N0 : forall t, 0 <= N t) by (intros; apply Rabs_pos).
  set (X := fun t => fst (fst (g t))). set (Y := fun t => snd (fst (g t))). set (Z := fun t => snd (g t)).
  assert (D2 : forall t, (X t - X t0) ^ 2 + (Y t - Y t0) ^ 2 + (Z t - Z t0) ^ 2 <= N t ^ 2). { intros t. unfold X, Y, Z. rewrite <- vdist_sq. apply pow_incr. split; [apply vdist_pos|apply Lg]. }
  assert (BX : forall t, Rabs (X t - X t0) <= N t) by (intros t; apply abs_of_sq; [apply N0|]; pose proof (D2 t); pose proof (pow2_ge_0 (Y t - Y t0)); pose proof (pow2_ge_0 (Z t - Z t0)); lra).
  assert (BY : forall t, Rabs (Y t - Y t0) <= N t) by (intros t; apply abs_of_sq; [apply N0|]; pose proof (D2 t); pose proof (pow2_ge_0 (X t - X t0)); pose proof (pow2_ge_0 (Z t - Z t0)); lra).
  assert (BZ : forall t, Rabs (Z t - Z t0) <= N t) by (intros t; apply abs_of_sq; [apply N0|]; pose proof (D2 t); pose proof (pow2_ge_0 (X t - X t0)); pose proof (pow2_ge_0 (Y t - Y t0)); lra).
  assert (LX : lin N X (X t0) (fun t => X t - X t0)) by (apply (lin_exact N N0); exists 1; split; [lra|]; apply near_all; intros t; pose proof (BX t); lra).
  assert (LY : lin N Y (Y t0) (fun t => Y t - Y t0)) by (apply (lin_exact N N0); exists 1; split; [lra|]; apply near_all; intros t; pose proof (BY t); lra).
  assert (LZ : lin N Z (Z t0) (fun t => Z t - Z t0)) by (apply (lin_exact N N0); exists 1; split; [lra|]; apply near_all; intros t; pose proof (BZ t); lra).
  set (X0 := X t0) in *. set (Y0 := Y t0) in *. set (Z0 := Z t0) in *.
  assert (HO : onS X0 Y0 Z0) by apply (unit_onS (g t0) (Ug t0)).
  assert (SE : sq x1 y1 z1 X0 Y0 Z0 = sqv (g t0)). { rewrite sq_angle. unfold X0, Y0, Z0, X, Y, Z. destruct (g t0) as [[? ?] ?]. reflexivity. }
  destruct (sin_288 _ Hs) as [S0 SR]. pose proof (cq_abs x1 y1 z1 P1 X0 Y0 Z0 HO) as CB.
  assert (CA : cos (sq x1 y1 z1 X0 Y0 Z0) = cq x1 y1 z1 X0 Y0 Z0) by (unfold sq; apply cos_acos; exact CB).
  pose proof (sc1 (sq x1 y1 z1 X0 Y0 Z0)) as SC. rewrite CA in SC. rewrite <- SE in S0, SR, Hs.
  assert (C : -1 < cq x1 y1 z1 X0 Y0 Z0 < 1) by (split; nra).
  pose proof (lin_K N N0 e2 x1 y1 z1 He P1 X Y Z X0 Y0 Z0 _ _ _ LX LY LZ HO C) as [_ Sm].
  destruct (pd_id x1 y1 z1 P1 X0 Y0 Z0 HO C) as (PD & _ & _ & _).
  set (s := sq x1 y1 z1 X0 Y0 Z0) in *. set (d := dq x1 y1 z1 X0 Y0 Z0) in *. set (p := pq x1 y1 z1 X0 Y0 Z0) in *. set (c := cq x1 y1 z1 X0 Y0 Z0) in *. set (dz := - sin s * z1 + c * d).
  assert (PP : Rabs p <= 1) by (apply abs_of_sq; [lra|]; pose proof (pow2_ge_0 z1); pose proof (pow2_ge_0 d); lra).
  assert (CC : Rabs c <= 1) by (apply Rabs_le; lra).
  assert (DD : Rabs dz <= 1). { apply abs_of_sq; [lra|]. assert (Q : dz ^ 2 + (c * z1 + sin s * d) ^ 2 = z1 ^ 2 + d ^ 2). { unfold dz. replace ((- sin s * z1 + c * d) ^ 2 + (c * z1 + sin s * d) ^ 2) with ((sin s * sin s + c * c) * (z1 ^ 2 + d ^ 2)) by ring. rewrite SC. ring. }
    pose proof (pow2_ge_0 (c * z1 + sin s * d)). pose proof (pow2_ge_0 p). lra. }
  assert (HD : z1 ^ 2 + d ^ 2 <= 1) by (pose proof (pow2_ge_0 p); lra). assert (Hs0 : 0 <= s) by lra.
  pose proof (Jf_le e2 He z1 s d Hs0) as BJ. pose proof (Jd_le e2 He z1 s d Hs0 HD) as BD. pose proof (gg_bound e2 He Z0) as BG.
  assert (IS : 0 < / sin s) by (apply Rinv_0_lt_compat; lra). assert (SI : s * / sin s <= 14) by (apply Rmult_le_reg_r with (sin s); [lra|]; rewrite Rmult_assoc, Rinv_l by lra; lra). assert (SI0 : 0 <= s * / sin s) by (apply Rmult_le_pos; lra).
  assert (es : e2 * (s * / sin s) <= 28 / 100) by nra. assert (es0 : 0 <= e2 * (s * / sin s)) by (apply Rmult_le_pos; lra).
  destruct (Sm (/ 100) ltac:(lra)) as (del & Hp & Hd). exists (Rmin del (sin s)). split; [apply Rmin_glb_lt; lra|]. intros t Ht.
  assert (D1 : N t < del) by (eapply Rlt_le_trans; [exact Ht|apply Rmin_l]). assert (D3 : N t < sin s) by (eapply Rlt_le_trans; [exact Ht|apply Rmin_r]).
  specialize (Hd t D1). cbv beta in Hd. change (Kv (g t)) with (Kq e2 x1 y1 z1 (X t) (Y t) (Z t)). change (Kv (g t0)) with (Kq e2 x1 y1 z1 X0 Y0 Z0). fold (N t).
  set (K1 := Kq e2 x1 y1 z1 (X t) (Y t) (Z t)) in *. set (K0 := Kq e2 x1 y1 z1 X0 Y0 Z0) in *.
  unfold ld, lp, Dz, ls, lc in Hd. fold s d p c dz in Hd. fold dz in Hd.
  specialize (D2 t). specialize (BX t). specialize (BY t). specialize (BZ t). pose proof (N0 t) as Nt.
  assert (UT : onS (X t) (Y t) (Z t)) by apply (unit_onS (g t) (Ug t)). unfold onS in UT, HO.
  set (dx := X t - X0) in *. set (dy := Y t - Y0) in *. set (dw := Z t - Z0) in *. set (n := N t) in *.
  assert (XD : X0 * dx + Y0 * dy + Z0 * dw = - (dx ^ 2 + dy ^ 2 + dw ^ 2) / 2). { unfold dx, dy, dw. replace ((X t - X0) ^ 2 + (Y t - Y0) ^ 2 + (Z t - Z0) ^ 2) with (X t ^ 2 + Y t ^ 2 + Z t ^ 2 - 2 * (X0 * (X t - X0) + Y0 * (Y t - Y0) + Z0 * (Z t - Z0)) - (X0 ^ 2 + Y0 ^ 2 + Z0 ^ 2)) by ring. rewrite UT, HO. field. }
  clearbody K1 K0. set (lc0 := x1 * dx + y1 * dy + z1 * dw) in *.
  assert (LC : Rabs lc0 <= 2 * sin s * n).
  { assert (E : lc0 = ((x1 - c * X0) * dx + (y1 - c * Y0) * dy + (z1 - c * Z0) * dw) + c * (X0 * dx + Y0 * dy + Z0 * dw)) by (unfold lc0; ring). rewrite E, XD.
    assert (Q1 : Rabs ((x1 - c * X0) * dx + (y1 - c * Y0) * dy + (z1 - c * Z0) * dw) <= sin s * n).
    { apply abs_of_sq; [apply Rmult_le_pos; lra|]. eapply Rle_trans; [apply cauchy3|]. replace ((x1 - c * X0) ^ 2 + (y1 - c * Y0) ^ 2 + (z1 - c * Z0) ^ 2) with ((x1 ^ 2 + y1 ^ 2 + z1 ^ 2) - 2 * c * (x1 * X0 + y1 * Y0 + z1 * Z0) + c * c * (X0 ^ 2 + Y0 ^ 2 + Z0 ^ 2)) by ring. change (x1 * X0 + y1 * Y0 + z1 * Z0) with c. rewrite P1, HO. replace (1 - 2 * c * c + c * c * 1) with (sin s * sin s) by lra.
      replace ((sin s * n) ^ 2) with (sin s * sin s * n ^ 2) by ring. apply Rmult_le_compat_l; [nra|exact D2]. }
    assert (Q2 : Rabs (c * (- (dx ^ 2 + dy ^ 2 + dw ^ 2) / 2)) <= 1 * (n ^ 2 / 2)). { apply L_vincenty2.Rabs_mul_le; [exact CC|]. pose proof (pow2_ge_0 dx). pose proof (pow2_ge_0 dy). pose proof (pow2_ge_0 dw). apply Rabs_le. lra. }
    eapply Rle_trans; [apply Rabs_triang|]. assert (n ^ 2 / 2 <= sin s * n) by nra. lra. }
  assert (LS : Rabs (- / sin s * lc0) <= 2 * n). { apply Rle_trans with (/ sin s * (2 * sin s * n)); [apply L_vincenty2.Rabs_mul_le; [rewrite Rabs_Ropp, Rabs_right by lra; lra|exact LC]|]. right. field. lra. }
  set (l := - / sin s * lc0) in *. clearbody l. clear LC.
  assert (M1 : Rabs (x1 * dy - y1 * dx) <= n). { apply abs_of_sq; [exact Nt|]. pose proof (cauchy3 x1 (- y1) 0 dy dx 0) as Q. pose proof (pow2_ge_0 dw). pose proof (pow2_ge_0 z1). pose proof (pow2_ge_0 dx). pose proof (pow2_ge_0 dy). assert ((x1 ^ 2 + (- y1) ^ 2 + 0 ^ 2) * (dy ^ 2 + dx ^ 2 + 0 ^ 2) <= 1 * n ^ 2) by (apply Rmult_le_compat; nra). nra. }
  assert (T0 : Rabs (gg e2 Z0 * l) <= 102 / 10000 * (2 * n)) by (apply L_vincenty2.Rabs_mul_le; [rewrite Rabs_right; lra|exact LS]).
  assert (T2 : Rabs (Jd e2 z1 s d * (/ sin s * (dw - dz * l))) <= 6 / 1000 * (28 / 100) * (3 * n)).
  { apply Rle_trans with (6 / 1000 * e2 * s * (/ sin s * (n + 1 * (2 * n)))). { apply L_vincenty2.Rabs_mul_le; [exact BD|]. apply L_vincenty2.Rabs_mul_le; [rewrite Rabs_right; lra|]. unfold Rminus. eapply Rle_trans; [apply Rabs_triang|]. apply Rplus_le_compat; [exact BZ|]. rewrite Rabs_Ropp. now apply L_vincenty2.Rabs_mul_le. }
    replace (6 / 1000 * e2 * s * (/ sin s * (n + 1 * (2 * n)))) with (6 / 1000 * (e2 * (s * / sin s)) * (3 * n)) by ring. apply Rmult_le_compat_r; lra. }
  assert (T3 : Rabs (Jf e2 z1 s d * (/ sin s * (x1 * dy - y1 * dx - p * c * l))) <= 102 / 200 * (28 / 100) * (3 * n)).
  { apply Rle_trans with (102 / 200 * e2 * s * (/ sin s * (n + 1 * 1 * (2 * n)))). { apply L_vincenty2.Rabs_mul_le; [exact BJ|]. apply L_vincenty2.Rabs_mul_le; [rewrite Rabs_right; lra|]. unfold Rminus at 1. eapply Rle_trans; [apply Rabs_triang|]. apply Rplus_le_compat; [exact M1|]. rewrite Rabs_Ropp. apply L_vincenty2.Rabs_mul_le; [now apply L_vincenty2.Rabs_mul_le|exact LS]. }
    replace (102 / 200 * e2 * s * (/ sin s * (n + 1 * 1 * (2 * n)))) with (102 / 200 * (e2 * (s * / sin s)) * (3 * n)) by (field; lra). apply Rmult_le_compat_r; lra. }
  assert (T4 : Rabs (p * (gg e2 Z0 * l + Jd e2 z1 s d * (/ sin s * (dw - dz * l)))) <= 1 * (102 / 10000 * (2 * n) + 6 / 1000 * (28 / 100) * (3 * n))) by (apply L_vincenty2.Rabs_mul_le; [exact PP|]; eapply Rle_trans; [apply Rabs_triang|]; lra).
  match type of Hd with Rabs (K1 - K0 - ?q) <= _ => assert (Q : Rabs q <= 1 * (102 / 10000 * (2 * n) + 6 / 1000 * (28 / 100) * (3 * n)) + 102 / 200 * (28 / 100) * (3 * n)) by (eapply Rle_trans; [apply Rabs_triang|]; apply Rplus_le_compat; [exact T4|exact T3]); set (w := q) in * end.
  apply Rabs_le_between in Q. apply Rabs_le_between in Hd. apply Rabs_le. lra.
Qed.
Lemma K_near Q Q' : is_unit Q -> is_unit Q' -> 2 * unit_angle Q Q' < sqv Q -> sqv Q + 2 * unit_angle Q Q' <= 29 / 10 -> Rabs (Kv Q' - Kv Q) <= / 2 * unit_angle Q Q'.
Proof.
  intros UQ UQ' B1 B2. pose proof pi_gt as PG. assert (U1 : is_unit (x1, y1, z1)) by (apply unit_v; exact P1). pose proof (L_nvector.angle_range _ _ UQ UQ') as RG. pose proof (L_nvector.angle_range _ _ U1 UQ) as RS.
  destruct (gc_link Q Q' UQ UQ' ltac:(lra)) as (g & G0 & G1 & GU & GD). set (L := unit_angle Q Q') in *.
  assert (SR : forall t, 0 <= t <= L -> 0 < sqv (g t) <= 29 / 10).
  { intros t Ht. pose proof (angle_chord Q (g t) UQ (GU t)) as AC. pose proof (GD 0 t) as D. rewrite G0, Rminus_0_l, Rabs_Ropp, Rabs_right in D by lra.
    pose proof (L_vin3.angle_triangle _ _ _ U1 UQ (GU t)). pose proof (L_vin3.angle_triangle _ _ _ U1 (GU t) UQ) as T. rewrite (L_nvector.angle_sym (g t) Q) in T. lra. }
  assert (HALF : forall e, Rabs e = 1 -> e * (Kv Q' - Kv Q) <= / 2 * L + 0).
  { intros e He1. apply (growth (fun t u => u = e * (Kv (g t) - Kv Q)) L (/ 2) 0); try lra.
    - intros t _. eexists. reflexivity.
    - intros u ->. rewrite G0. lra.
    - intros t u Ht ->. left. destruct (K_local g t GU GD (SR t Ht)) as (del & D0 & D1). exists del. split; [exact D0|]. intros t' u' _ -> Hd.
      replace (e * (Kv (g t') - Kv Q) - e * (Kv (g t) - Kv Q)) with (e * (Kv (g t') - Kv (g t))) by ring. rewrite Rabs_mult, He1, Rmult_1_l. apply D1, Hd.
    - rewrite G1. reflexivity. }
  pose proof (HALF 1 ltac:(apply Rabs_R1)). pose proof (HALF (-1) ltac:(rewrite Rabs_left; lra)). apply Rabs_le. lra.
Qed.
End Dir.
(** ** Turning about the axis *)
Lemma rot_unit th p : is_unit p -> is_unit (rot th p).
Proof. destruct p as [[x y] z]. unfold is_unit, rot, vdot. intros H. pose proof (sc1 th) as S. replace ((cos th * x - sin th * y) * (cos th * x - sin th * y) + (sin th * x + cos th * y) * (sin th * x + cos th * y) + z * z) with ((sin th * sin th + cos th * cos th) * (x * x + y * y) + z * z) by ring. rewrite S. lra. Qed.
Lemma rot_iso th p q : unit_angle (rot th p) (rot th q) = unit_angle p q.
Proof. unfold unit_angle. f_equal. destruct p as [[x y] z], q as [[x' y'] z']. unfold rot, vdot. pose proof (sc1 th) as S. replace ((cos th * x - sin th * y) * (cos th * x' - sin th * y') + (sin th * x + cos th * y) * (sin th * x' + cos th * y') + z * z') with ((sin th * sin th + cos th * cos th) * (x * x' + y * y') + z * z') by ring. rewrite S. ring. Qed.
Lemma rot_rot a b p : rot a (rot b p) = rot (a + b) p.
Proof. destruct p as [[x y] z]. unfold rot. rewrite cos_plus, sin_plus. apply f_equal2; [apply f_equal2|]; ring. Qed.
Lemma rot_turn th p : is_unit p -> unit_angle p (rot th p) <= Rabs th.
Proof.
  intros H. pose proof (unit_onS p H) as O. destruct p as [[x y] z]. cbn [fst snd] in O. pose proof (rot_angle x y z th O) as Q. unfold rX, rY in Q. unfold rot.
  replace (cos th * x - sin th * y) with (x * cos th - y * sin th) by ring. replace (sin th * x + cos th * y) with (x * sin th + y * cos th) by ring. exact Q.
Qed.
Lemma turn_back th th' Q Q' : is_unit Q -> is_unit Q' -> unit_angle Q Q' <= unit_angle (rot th Q) (rot th' Q') + Rabs (th - th').
Proof.
  intros U U'. pose proof (L_vin3.angle_triangle _ _ _ (rot_unit th Q U) (rot_unit th' Q' U') (rot_unit th Q' U')) as T. rewrite rot_iso in T.
  pose proof (rot_turn (th - th') (rot th' Q') (rot_unit th' Q' U')) as K. rewrite rot_rot in K. replace (th - th' + th') with th in K by ring. lra.
Qed.
(** ** The arc of the auxiliary sphere *)
Section Arc.
Variables (f x1 y1 z1 x2 y2 z2 c0 s1 : R).
Hypothesis F : 0 <= f <= 1 / 100.
Hypothesis U1 : x1 ^ 2 + y1 ^ 2 + z1 ^ 2 = 1.
Hypothesis U2 : x2 ^ 2 + y2 ^ 2 + z2 ^ 2 = 1.
Hypothesis U12 : x1 * x2 + y1 * y2 + z1 * z2 = 0.
Hypothesis Z1 : z1 = c0 * sin s1.
Hypothesis Z2 : z2 = c0 * cos s1.
Let e2 := f * (2 - f).
Definition Qa (s : R) : vec3 := (c_X x1 x2 s, c_Y y1 y2 s, c_Z z1 z2 s).
Lemma arc_facts s : 0 < s <= 28 / 10 -> is_unit (Qa s) /\ unit_angle (x1, y1, z1) (Qa s) = s /\ Kv e2 x1 y1 z1 (Qa s) = - c_th f x1 y1 x2 y2 c0 s1 s /\ Rabs (c_th f x1 y1 x2 y2 c0 s1 s) <= 102 / 10000 * s.
Proof.
  intros Hs. pose proof pi_gt as PG. pose proof (He2 f F) as HE. fold e2 in HE. unfold Qa, Kv. cbn [fst snd]. rewrite <- (sq_angle x1 y1 z1). set (X := c_X x1 x2 s). set (Y := c_Y y1 y2 s). set (Z := c_Z z1 z2 s). set (th := c_th f x1 y1 x2 y2 c0 s1 s).
  assert (S0 : 0 < sin s) by (apply sin_gt_0; lra).
  assert (ON : onS X Y Z). { unfold onS. destruct (c_rels x1 y1 z1 x2 y2 z2 U1 U2 U12 s) as (Q & _). exact Q. }
  assert (CQ : cq x1 y1 z1 X Y Z = cos s). { unfold cq, X, Y, Z, c_X, c_Y, c_Z. replace (x1 * (x1 * cos s + x2 * sin s) + y1 * (y1 * cos s + y2 * sin s) + z1 * (z1 * cos s + z2 * sin s)) with ((x1 ^ 2 + y1 ^ 2 + z1 ^ 2) * cos s + (x1 * x2 + y1 * y2 + z1 * z2) * sin s) by ring. rewrite U1, U12. ring. }
  assert (SQ : sq x1 y1 z1 X Y Z = s) by (unfold sq; rewrite CQ; apply acos_cos; lra).
  assert (DQ : dq x1 y1 z1 X Y Z = z2). { unfold dq. rewrite SQ, CQ. unfold Z, c_Z. field. lra. }
  assert (PQ : pq x1 y1 z1 X Y Z = c_s0 x1 y1 x2 y2). { unfold pq. rewrite SQ. unfold X, Y, c_X, c_Y, c_s0. field. lra. }
  assert (KQ : Kq e2 x1 y1 z1 X Y Z = - th). { unfold Kq. rewrite SQ, DQ, PQ. unfold th. rewrite (th_J f x1 y1 z1 x2 y2 z2 c0 s1 F Z1 Z2) by lra. fold e2. ring. }
  split; [apply unit_v; exact ON|]. split; [exact SQ|]. split; [exact KQ|].
  assert (MID : mid x1 y1 z1 X Y Z) by (split; [exact ON|rewrite SQ; lra]). pose proof (K_le e2 x1 y1 z1 HE U1 X Y Z MID) as KL. rewrite KQ, SQ, Rabs_Ropp in KL. exact KL.
Qed.
End Arc.
