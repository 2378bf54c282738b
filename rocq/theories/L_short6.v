(** The geodesics of the spheroid in terms of the auxiliary sphere: each of length at
    most 2.7 a is a shortest path. *)
From Coq Require Import Reals Ratan Lra Lia Psatz.
From Coquelicot Require Import Coquelicot.
From Verif Require Import PyMath Spec Spec_geodesic L_PyMath L_geodesic1 L_geodesic2 L_geodesic3 L_geodesic4 L_short1 L_short2 L_short3 L_short4 L_short5.
From Verif Require L_vincenty2 L_nvector L_vin3 L_ecef L_geodesic9.
Open Scope R_scope.

(** ** The same functions *)
Section Same.
Variables (a f x1 y1 z1 x2 y2 z2 c0 s1 : R).
Hypothesis Ha : 0 < a.
Hypothesis F : 0 <= f <= 1 / 100.
Hypothesis U1 : x1 ^ 2 + y1 ^ 2 + z1 ^ 2 = 1.
Hypothesis U2 : x2 ^ 2 + y2 ^ 2 + z2 ^ 2 = 1.
Hypothesis U12 : x1 * x2 + y1 * y2 + z1 * z2 = 0.
Hypothesis Z1 : z1 = c0 * sin s1.
Hypothesis Z2 : z2 = c0 * cos s1.
Let e2 := f * (2 - f).
Lemma F1 : 0 <= f < 1. Proof. lra. Qed.
Lemma He2 : 0 <= e2 <= 2 / 100. Proof. unfold e2. nra. Qed.
Lemma c_u_ww s : c_u f c0 s1 s = ww e2 (zt z1 z2 s).
Proof.
  pose proof (c_u_sq f z1 z2 c0 s1 F1 Z1 Z2 s) as Q. pose proof (c_u_pos f c0 s1 F1 s) as P. unfold ww. replace (1 - e2 * (1 - zt z1 z2 s ^ 2)) with (c_u f c0 s1 s ^ 2); [rewrite sqrt_pow2; lra|].
  rewrite Q. unfold e2, zt, c_Z. ring.
Qed.
Lemma same_fun (G H : R -> R) (d : R -> R) : (forall s, is_derive G s (d s)) -> (forall s, is_derive H s (d s)) -> G 0 = H 0 -> forall s, 0 <= s -> G s = H s.
Proof.
  intros DG DH E s Hs. destruct Hs as [Hs|<-]; [|exact E].
  assert (X : (fun t => G t - H t) 0 = (fun t => G t - H t) s). { apply (eq_is_derive (V := R_NormedModule) (fun t => G t - H t) 0 s); [|exact Hs]. intros t _. replace (@zero R_NormedModule) with (minus (d t) (d t)) by (unfold minus, plus, opp, zero; cbn; ring). apply (is_derive_minus G H t _ _ (DG t) (DH t)). }
  cbv beta in X. lra.
Qed.
Lemma In_0 p d : In z1 p 0 d = 0. Proof. unfold In. exact (RInt_point (V := R_CompleteNormedModule) 0 (fun t => p (zt z1 d t))). Qed.
Lemma len_S s : 0 <= s -> c_len a f c0 s1 s = a * Sf e2 z1 s z2.
Proof.
  apply (same_fun (c_len a f c0 s1) (fun s => a * Sf e2 z1 s z2) (fun s => a * c_u f c0 s1 s)).
  - intros t. apply c_len_derive. exact F1.
  - intros t. rewrite c_u_ww. apply (is_derive_scal (fun s => Sf e2 z1 s z2) t a). unfold Sf. apply (In_derive z1 (ww e2) (ww_cont e2 He2)).
  - rewrite c_len_0. unfold Sf. rewrite In_0. ring.
Qed.
Lemma th_J s : 0 <= s -> c_th f x1 y1 x2 y2 c0 s1 s = - (c_s0 x1 y1 x2 y2 * Jf e2 z1 s z2).
Proof.
  apply (same_fun (c_th f x1 y1 x2 y2 c0 s1) (fun s => - (c_s0 x1 y1 x2 y2 * Jf e2 z1 s z2)) (fun s => - c_g f x1 y1 x2 y2 c0 s1 s)).
  - intros t. apply c_th_derive. exact F1.
  - intros t. unfold c_g. rewrite c_u_ww. set (k := c_s0 x1 y1 x2 y2). assert (D : is_derive (fun s => Jf e2 z1 s z2) t (gg e2 (zt z1 z2 t))) by (unfold Jf; apply (In_derive z1 (gg e2) (gg_cont e2 He2))).
    replace (- (f * (2 - f) * k / (1 + ww e2 (zt z1 z2 t)))) with (- k * gg e2 (zt z1 z2 t)) by (unfold gg, e2, Rdiv; ring).
    assert (EQ : forall s, - k * Jf e2 z1 s z2 = - (k * Jf e2 z1 s z2)) by (intros; ring). apply (is_derive_ext (fun s => - k * Jf e2 z1 s z2)); [exact EQ|]. apply (is_derive_scal (fun s => Jf e2 z1 s z2) t (- k)). exact D.
  - unfold c_th, Jf. rewrite In_0, Rplus_0_r. ring.
Qed.
(** the point of the unit sphere that goes with a point of the surface *)
Definition pn (s : R) : vec3 := rot (c_th f x1 y1 x2 y2 c0 s1 s) (c_X x1 x2 s, c_Y y1 y2 s, c_Z z1 z2 s).
Lemma arc_long s M : 0 < s <= 28 / 10 -> is_unit (pn s) /\ long e2 (x1, y1, z1) M (pn s) (Rmin M (Sf e2 z1 s z2)).
Proof.
  intros Hs. pose proof pi_gt as PG. set (X := c_X x1 x2 s). set (Y := c_Y y1 y2 s). set (Z := c_Z z1 z2 s). set (th := c_th f x1 y1 x2 y2 c0 s1 s).
  assert (S0 : 0 < sin s) by (apply sin_gt_0; lra). pose proof (sc1 s) as SC.
  assert (ON : onS X Y Z). { unfold onS. destruct (c_rels x1 y1 z1 x2 y2 z2 U1 U2 U12 s) as (Q & _). exact Q. }
  assert (CQ : cq x1 y1 z1 X Y Z = cos s). { unfold cq, X, Y, Z, c_X, c_Y, c_Z. replace (x1 * (x1 * cos s + x2 * sin s) + y1 * (y1 * cos s + y2 * sin s) + z1 * (z1 * cos s + z2 * sin s)) with ((x1 ^ 2 + y1 ^ 2 + z1 ^ 2) * cos s + (x1 * x2 + y1 * y2 + z1 * z2) * sin s) by ring. rewrite U1, U12. ring. }
  assert (SQ : sq x1 y1 z1 X Y Z = s) by (unfold sq; rewrite CQ; apply acos_cos; lra).
  assert (DQ : dq x1 y1 z1 X Y Z = z2). { unfold dq. rewrite SQ, CQ. unfold Z, c_Z. field. lra. }
  assert (PQ : pq x1 y1 z1 X Y Z = c_s0 x1 y1 x2 y2). { unfold pq. rewrite SQ. unfold X, Y, c_X, c_Y, c_s0. field. lra. }
  assert (KQ : Kq e2 x1 y1 z1 X Y Z = - th). { unfold Kq. rewrite SQ, DQ, PQ. unfold th. rewrite th_J by lra. ring. }
  assert (ST : sin th * sin th + cos th * cos th = 1) by apply sc1.
  set (x := cos th * X - sin th * Y). set (y := sin th * X + cos th * Y). assert (PN : pn s = (x, y, Z)) by reflexivity.
  assert (RX : rX x y (- th) = X). { unfold rX, x, y. rewrite cos_neg, sin_neg. replace ((cos th * X - sin th * Y) * cos th - (sin th * X + cos th * Y) * - sin th) with ((sin th * sin th + cos th * cos th) * X) by ring. rewrite ST. ring. }
  assert (RY : rY x y (- th) = Y). { unfold rY, x, y. rewrite cos_neg, sin_neg. replace ((cos th * X - sin th * Y) * - sin th + (sin th * X + cos th * Y) * cos th) with ((sin th * sin th + cos th * cos th) * Y) by ring. rewrite ST. ring. }
  assert (OP : onS x y Z). { unfold onS in *. replace (x ^ 2 + y ^ 2) with ((sin th * sin th + cos th * cos th) * (X ^ 2 + Y ^ 2)) by (unfold x, y; ring). rewrite ST. lra. }
  assert (U : is_unit (pn s)) by (rewrite PN; now apply unit_v). split; [exact U|].
  assert (P1u : is_unit (x1, y1, z1)) by (apply unit_v; exact U1).
  assert (MID : mid x1 y1 z1 X Y Z) by (split; [exact ON|rewrite SQ; lra]). pose proof (K_le e2 x1 y1 z1 He2 U1 X Y Z MID) as KL. rewrite KQ, SQ in KL.
  pose proof (rot_sq x1 y1 z1 U1 x y Z (- th) OP) as RS. rewrite RX, RY, SQ in RS. apply Rabs_le_between in RS.
  assert (SA : sq x1 y1 z1 x y Z = unit_angle (x1, y1, z1) (pn s)) by (rewrite PN; reflexivity). rewrite SA in RS.
  right. left. split; [lra|]. exists (- th). unfold reachp, Tp. rewrite PN in *. cbn [fst snd] in *. split.
  - split; [rewrite SA; lra|]. rewrite RX, RY. symmetry. exact KQ.
  - unfold Tq, Sq. rewrite RX, RY, SQ, DQ. reflexivity.
Qed.
End Same.

(** ** Any geodesic *)
Section Any.
Variables (a f : R).
Hypothesis Ha : 0 < a.
Hypothesis F : 0 <= f <= 1 / 100.
Let b := a * (1 - f).
Let e2 := f * (2 - f).
Definition nrm (p : vec3) : vec3 := (fst (fst p) / a, snd (fst p) / a, snd p / (a * (1 - f))).
Lemma on_unit p : on_ellipsoid a b p -> is_unit (nrm p).
Proof. destruct p as [[x y] z]. unfold on_ellipsoid, is_unit, nrm, vdot. cbn [fst snd]. fold b. assert (0 < b) by (unfold b; nra). intros HH. rewrite <- HH. field. lra. Qed.
Lemma dist_nrm p q : dist_e e2 (nrm p) (nrm q) = vdist3 p q / a.
Proof.
  destruct p as [[x y] z], q as [[x' y'] z']. unfold dist_e, nrm, vdist3, vnorm, vdot, vsub. cbn [fst snd].
  set (w := (x - x') * (x - x') + (y - y') * (y - y') + (z - z') * (z - z')). assert (W : 0 <= w) by (unfold w; pose proof (Rle_0_sqr (x - x')); pose proof (Rle_0_sqr (y - y')); pose proof (Rle_0_sqr (z - z')); unfold Rsqr in *; lra).
  assert (K : sqrt w / a = sqrt (w / a ^ 2)) by (rewrite sqrt_div by (try lra; nra); rewrite sqrt_pow2; lra). rewrite K. apply f_equal. unfold w, e2. field. split; nra.
Qed.
Lemma tangent c t : unit_geodesic a b c t -> forall x, vdot (t x) (gradient a b (c x)) = 0.
Proof.
  intros H x. assert (Hb : 0 < b <= a) by (unfold b; nra). destruct (H x) as (_ & D & _). pose proof (vderive_dot c (fun y => gradient a b (c y)) x _ _ D (Gderive a b c x _ D)) as Q.
  assert (Z : is_derive (fun y => vdot (c y) (gradient a b (c y))) x 0).
  { apply is_derive_ext with (f := fun _ => 1). { intros y. symmetry. apply (on_eq a b (proj1 Hb) (proj2 Hb)). apply (H y). } apply (is_derive_const (V := R_NormedModule)). }
  apply is_derive_unique in Q. apply is_derive_unique in Z. rewrite Q in Z.
  assert (E : vdot (c x) (gradient a b (t x)) = vdot (t x) (gradient a b (c x))) by (rewrite (Gsym a b (proj1 Hb) (proj2 Hb)); apply L_ecef.vdot_comm). lra.
Qed.
(** the direction on the auxiliary sphere *)
Lemma frame p v : on_ellipsoid a b p -> is_unit v -> vdot v (gradient a b p) = 0 -> exists x2 y2 z2 c0 s1,
  let x1 := fst (fst (nrm p)) in let y1 := snd (fst (nrm p)) in let z1 := snd (nrm p) in
  x2 ^ 2 + y2 ^ 2 + z2 ^ 2 = 1 /\ x1 * x2 + y1 * y2 + z1 * z2 = 0 /\ z1 = c0 * sin s1 /\ z2 = c0 * cos s1 /\
  c_pos a f x1 y1 z1 x2 y2 z2 c0 s1 0 = p /\ c_tan f x1 y1 z1 x2 y2 z2 c0 s1 0 = v.
Proof.
  intros HP HV HT. pose proof (on_unit p HP) as UN. destruct p as [[px py] pz], v as [[tx ty] tz]. unfold nrm in *. cbn [fst snd] in *. set (x1 := px / a) in *. set (y1 := py / a) in *. set (z1 := pz / (a * (1 - f))) in *.
  set (q := 1 - f) in *. assert (q0 : 0 < q) by (unfold q; lra). assert (B0 : 0 < b) by (unfold b; fold q; nra).
  assert (EX : px = a * x1) by (unfold x1; field; lra). assert (EY : py = a * y1) by (unfold y1; field; lra). assert (EZ : pz = a * q * z1) by (unfold z1; field; lra).
  unfold is_unit, vdot in UN, HV. assert (TG : q * (x1 * tx + y1 * ty) + z1 * tz = 0).
  { unfold gradient, vdot in HT. rewrite EX, EY, EZ in HT. apply Rmult_eq_reg_r with (/ (a * q)); [|apply Rinv_neq_0_compat; nra]. rewrite Rmult_0_l, <- HT. unfold b. fold q. field. lra. }
  set (u := ww e2 z1). assert (UU : u ^ 2 = z1 ^ 2 + q ^ 2 * (1 - z1 ^ 2)). { unfold u, ww. pose proof (arg_pos e2 ltac:(unfold e2; nra) z1). rewrite pow2_sqrt by lra. unfold e2, q. ring. }
  assert (u0 : 0 < u) by (pose proof (ww_lo e2 ltac:(unfold e2; nra) z1); unfold u; lra).
  set (m := x1 * ty - y1 * tx). set (g := e2 * m / (1 + u)). assert (h : x1 ^ 2 + y1 ^ 2 = 1 - z1 ^ 2) by lra. assert (E2 : e2 = 1 - q ^ 2) by (unfold e2, q; ring).
  assert (GH : g * (1 - z1 ^ 2) = m * (1 - u)). { unfold g. apply Rmult_eq_reg_r with (1 + u); [|lra]. replace (e2 * m / (1 + u) * (1 - z1 ^ 2) * (1 + u)) with (m * (e2 * (1 - z1 ^ 2))) by (field; lra). replace (e2 * (1 - z1 ^ 2)) with (1 - u ^ 2) by (rewrite UU, E2; ring). ring. }
  assert (GU : g * (1 + u) = e2 * m) by (unfold g; field; lra).
  set (x2 := u * tx - g * y1). set (y2 := u * ty + g * x1). set (z2 := u * tz / q).
  assert (K2 : x1 * tx + y1 * ty = - z1 * tz / q) by (apply Rmult_eq_reg_l with q; [|lra]; replace (q * (- z1 * tz / q)) with (- z1 * tz) by (field; lra); lra).
  assert (W1 : x1 * x2 + y1 * y2 + z1 * z2 = 0). { unfold x2, y2, z2. replace (x1 * (u * tx - g * y1) + y1 * (u * ty + g * x1) + z1 * (u * tz / q)) with (u * (x1 * tx + y1 * ty) + z1 * (u * tz / q)) by ring. rewrite K2. field. lra. }
  assert (LG : m ^ 2 = (1 - z1 ^ 2) * (1 - tz ^ 2) - (- z1 * tz / q) ^ 2). { rewrite <- K2. replace (1 - tz ^ 2) with (tx ^ 2 + ty ^ 2) by lra. rewrite <- h. unfold m. ring. }
  assert (W2 : x2 ^ 2 + y2 ^ 2 + z2 ^ 2 = 1).
  { assert (A : x2 ^ 2 + y2 ^ 2 = u ^ 2 * (1 - tz ^ 2) + 2 * u * g * m + g * (g * (1 - z1 ^ 2))). { rewrite <- h. replace (1 - tz ^ 2) with (tx ^ 2 + ty ^ 2) by lra. unfold x2, y2, m. ring. }
    rewrite A, GH. transitivity (u ^ 2 * (1 - tz ^ 2) + m * (g * (1 + u)) + z2 ^ 2); [ring|]. rewrite GU. replace (m * (e2 * m)) with (e2 * m ^ 2) by ring. rewrite LG. unfold z2. replace ((u * tz / q) ^ 2) with (u ^ 2 * tz ^ 2 / q ^ 2) by (field; lra). rewrite UU, E2. field. lra. }
  assert (PO : exists c0 s1, z1 = c0 * sin s1 /\ z2 = c0 * cos s1).
  { destruct (Req_dec (z1 ^ 2 + z2 ^ 2) 0) as [Z|Z].
    - exists 0, 0. pose proof (pow2_ge_0 z1). pose proof (pow2_ge_0 z2). split; nra.
    - pose proof (pow2_ge_0 z1). pose proof (pow2_ge_0 z2). exists (sqrt (z1 ^ 2 + z2 ^ 2)), (atan2 z1 z2). assert (R0 : 0 < sqrt (z1 ^ 2 + z2 ^ 2)) by (apply sqrt_lt_R0; lra). destruct (L_geodesic9.polar_norm z1 z2 _ R0 ltac:(rewrite pow2_sqrt; lra)) as [A B]. split; symmetry; assumption. }
  destruct PO as (c0 & s1 & Z1 & Z2). exists x2, y2, z2, c0, s1. cbv zeta. split; [exact W2|]. split; [exact W1|]. split; [exact Z1|]. split; [exact Z2|].
  assert (TH : c_th f x1 y1 x2 y2 c0 s1 0 = 0) by (unfold c_th; rewrite Rplus_0_r; ring).
  assert (CS : c_s0 x1 y1 x2 y2 = m). { unfold c_s0. replace (x1 * y2 - y1 * x2) with (u * m + g * (x1 ^ 2 + y1 ^ 2)) by (unfold x2, y2, m; ring). rewrite h, GH. ring. }
  assert (CU : c_u f c0 s1 0 = u). { rewrite (c_u_ww f z1 z2 c0 s1 F Z1 Z2). unfold zt. rewrite cos_0, sin_0. unfold u, e2. f_equal. ring. }
  assert (CG : c_g f x1 y1 x2 y2 c0 s1 0 = g) by (unfold c_g; rewrite CS, CU; reflexivity).
  split.
  - unfold c_pos. rewrite TH. unfold rot, c_X, c_Y, c_Z. rewrite cos_0, sin_0. fold q. rewrite EX, EY, EZ. apply f_equal2; [apply f_equal2|]; ring.
  - unfold c_tan. rewrite TH, CU, CG. unfold rot, c_X, c_Y, c_X', c_Y', c_Z'. rewrite cos_0, sin_0. fold q. unfold x2, y2, z2. apply f_equal2; [apply f_equal2|]; field; lra.
Qed.
(** ** The length of the geodesic is the length function of its end *)
Theorem geodesic_long c t s M : unit_geodesic a b c t -> 0 < s <= 274 / 100 * a -> long e2 (nrm (c 0)) M (nrm (c s)) (Rmin M (s / a)).
Proof.
  intros G Hs. destruct (G 0) as (O0 & _ & U0 & _). destruct (frame (c 0) (t 0) O0 U0 (tangent c t G 0)) as (x2 & y2 & z2 & c0 & s1 & W2 & W1 & Z1 & Z2 & P0 & T0).
  pose proof (on_unit _ O0) as UN. destruct (nrm (c 0)) as [[x1 y1] z1] eqn:EN. cbn [fst snd] in *. assert (V1 : x1 ^ 2 + y1 ^ 2 + z1 ^ 2 = 1) by (unfold is_unit, vdot in UN; lra).
  pose proof (F1 f F) as F'. pose proof (geodesic_exists a f x1 y1 z1 x2 y2 z2 c0 s1 Ha F' V1 W2 W1 Z1 Z2) as GE. set (hh := ex_h a f c0 s1 Ha F') in GE. pose proof (ex_h_len a f c0 s1 Ha F') as HLn. pose proof (ex_h_val a f c0 s1 Ha F') as HV. fold hh in HLn, HV.
  assert (H0 : hh 0 = 0) by (rewrite <- (c_len_0 a f c0 s1) at 1; apply HLn). assert (Bp : 0 < b <= a) by (unfold b; nra).
  destruct (geodesic_unique a b (proj1 Bp) (proj2 Bp) c t _ _ G GE ltac:(cbv beta; rewrite H0; symmetry; exact P0) ltac:(cbv beta; rewrite H0; symmetry; exact T0) s) as [UQ _]. cbv beta in UQ.
  set (sg := hh s) in *. assert (LS : c_len a f c0 s1 sg = s) by apply HV.
  assert (SG : 0 < sg). { apply Rnot_le_lt. intros X. pose proof (inv_mvt (c_len a f c0 s1) (fun s => a * c_u f c0 s1 s) (ex_len a f c0 s1 F') sg 0) as (k & _ & E). rewrite c_len_0, LS in E. pose proof (c_u_pos f c0 s1 F' k). assert (0 <= a * c_u f c0 s1 k) by (apply Rmult_le_pos; lra). assert (0 <= a * c_u f c0 s1 k * (0 - sg)) by (apply Rmult_le_pos; lra). lra. }
  assert (SS : s / a = Sf e2 z1 sg z2). { rewrite <- LS. rewrite (len_S a f z1 z2 c0 s1 F Z1 Z2 sg ltac:(lra)). unfold e2. field. lra. }
  assert (SL : sg <= 28 / 10). { pose proof (Sf_lo e2 ltac:(unfold e2; nra) z1 sg z2 ltac:(lra)) as Q. rewrite <- SS in Q. assert (s / a <= 274 / 100) by (apply Rmult_le_reg_r with a; [exact Ha|]; unfold Rdiv; rewrite Rmult_assoc, Rinv_l by lra; lra). lra. }
  destruct (arc_long f x1 y1 z1 x2 y2 z2 c0 s1 F V1 W2 W1 Z1 Z2 sg M ltac:(lra)) as [_ Q]. fold e2 in Q. rewrite SS.
  replace (nrm (c s)) with (pn f x1 y1 z1 x2 y2 z2 c0 s1 sg); [exact Q|]. rewrite UQ. unfold nrm, pn, c_pos, rot. cbn [fst snd]. apply f_equal2; [apply f_equal2|]; field; lra.
Qed.
(** Travelling on the surface at unit speed at most. *)
Theorem no_shorter c t s d L : unit_geodesic a b c t -> 0 < s <= 27 / 10 * a -> 0 <= L -> d 0 = c 0 -> d L = c s ->
  (forall x, 0 <= x <= L -> on_ellipsoid a b (d x)) -> (forall x y, 0 <= x <= L -> 0 <= y <= L -> vdist3 (d x) (d y) <= Rabs (x - y)) -> s <= L.
Proof.
  intros G Hs HL D0 DL ON LP. destruct (G 0) as (O0 & _). assert (IA : 0 < / a) by (apply Rinv_0_lt_compat; lra). assert (SA : s / a <= 27 / 10) by (apply Rmult_le_reg_r with a; [exact Ha|]; unfold Rdiv; rewrite Rmult_assoc, Rinv_l by lra; lra). assert (S0 : 0 < s / a) by (apply Rdiv_lt_0_compat; lra).
  assert (LA : forall x, 0 <= x <= L / a -> 0 <= a * x <= L). { intros x [X1 X2]. split; [apply Rmult_le_pos; lra|]. apply Rmult_le_reg_l with (/ a); [exact IA|]. replace (/ a * (a * x)) with x by (field; lra). unfold Rdiv in X2. lra. }
  assert (Q : Rmin (s / a) (s / a) <= L / a).
  { apply (long_le e2 (nrm (c 0)) ltac:(unfold e2; nra) (on_unit _ O0) (fun x => nrm (d (a * x))) (L / a) (s / a)).
    - apply Rmult_le_pos; lra.
    - lra.
    - rewrite Rmult_0_r, D0. reflexivity.
    - intros x Hx. apply on_unit, ON, LA, Hx.
    - intros x y Hx Hy. rewrite dist_nrm. pose proof (LP _ _ (LA x Hx) (LA y Hy)) as Q. replace (a * x - a * y) with (a * (x - y)) in Q by ring. rewrite Rabs_mult, (Rabs_right a) in Q by lra. apply Rmult_le_reg_l with a; [exact Ha|]. replace (a * (vdist3 (d (a * x)) (d (a * y)) / a)) with (vdist3 (d (a * x)) (d (a * y))) by (field; lra). exact Q.
    - replace (a * (L / a)) with L by (field; lra). rewrite DL. apply (geodesic_long c t s (s / a) G). lra. }
  rewrite Rmin_left in Q by lra. apply Rmult_le_reg_r with (/ a); [exact IA|]. exact Q.
Qed.
End Any.
