(** Shortest paths to a point near the end of a geodesic; geodesics close to half a
    turn long end far away. *)
From Coq Require Import Reals Ratan Lra Lia Psatz.
From Coquelicot Require Import Coquelicot.
From Verif Require Import PyMath Spec Spec_geodesic L_PyMath L_geodesic1 L_geodesic2 L_geodesic3 L_geodesic4 L_geodesic7 L_short1 L_short2 L_short3 L_short4 L_short5 L_short6.
From Verif Require L_vincenty2 L_nvector L_vin2 L_vin3 L_vin7 L_aer.
Open Scope R_scope.

(** ** The scaled distance *)
Lemma dist_scaled e2 p q : 0 <= e2 <= 2 / 100 -> dist_e e2 p q = vdist3 (fst (fst p), snd (fst p), sqrt (1 - e2) * snd p) (fst (fst q), snd (fst q), sqrt (1 - e2) * snd q).
Proof. intros He. unfold dist_e, vdist3, vnorm, vdot, vsub. f_equal. assert (Q : sqrt (1 - e2) * sqrt (1 - e2) = 1 - e2) by (apply sqrt_sqrt; lra). destruct p as [[x y] z], q as [[x' y'] z']. cbn [fst snd]. replace ((sqrt (1 - e2) * z - sqrt (1 - e2) * z') * (sqrt (1 - e2) * z - sqrt (1 - e2) * z')) with (sqrt (1 - e2) * sqrt (1 - e2) * (z - z') ^ 2) by ring. rewrite Q. ring. Qed.
Lemma dist_tri e2 p q r : 0 <= e2 <= 2 / 100 -> dist_e e2 p r <= dist_e e2 p q + dist_e e2 q r.
Proof. intros He. rewrite !dist_scaled by exact He. apply vdist3_triangle. Qed.
Lemma dist_sym e2 p q : dist_e e2 p q = dist_e e2 q p.
Proof. unfold dist_e. f_equal. ring. Qed.
Lemma dist_le e2 p q : 0 <= e2 <= 2 / 100 -> dist_e e2 p q <= vdist3 p q.
Proof.
  intros He. destruct p as [[x y] z], q as [[x' y'] z']. unfold vdist3, vnorm, dist_e, vdot, vsub. cbn [fst snd]. apply sqrt_le_1_alt. pose proof (pow2_ge_0 (z - z')). assert (0 <= e2 * (z - z') ^ 2) by (apply Rmult_le_pos; lra). lra.
Qed.
(** ** A great circle between two unit vectors *)
Lemma gc_link p q : is_unit p -> is_unit q -> unit_angle p q < PI -> exists g : R -> vec3, g 0 = p /\ g (unit_angle p q) = q /\ (forall x, is_unit (g x)) /\ (forall x y, vdist3 (g x) (g y) <= Rabs (x - y)).
Proof.
  intros Hp Hq HP. pose proof (L_nvector.angle_range p q Hp Hq) as RG. pose proof (L_nvector.cos_angle p q Hp Hq) as C. set (th := unit_angle p q) in *.
  assert (M : exists n, is_unit n /\ vdot p n = 0 /\ vadd (vscale (cos th) p) (vscale (sin th) n) = q).
  { destruct (Req_dec th 0) as [Z|Z].
    - assert (E : p = q) by (apply (L_nvector.angle_0 p q Hp Hq); exact Z). rewrite Z, sin_0, cos_0. subst q. clear Hq C. destruct p as [[x y] z]. unfold is_unit, vdot in Hp.
      assert (N : exists u v w, u * u + v * v + w * w = 1 /\ x * u + y * v + z * w = 0).
      { destruct (Req_dec (x ^ 2 + y ^ 2) 0) as [E|E]. { exists 1, 0, 0. assert (x = 0) by nra. split; [ring|subst; ring]. }
        pose proof (pow2_ge_0 x). pose proof (pow2_ge_0 y). assert (R0 : 0 < sqrt (x ^ 2 + y ^ 2)) by (apply sqrt_lt_R0; lra). assert (R2 : sqrt (x ^ 2 + y ^ 2) * sqrt (x ^ 2 + y ^ 2) = x ^ 2 + y ^ 2) by (apply sqrt_sqrt; lra). set (r := sqrt (x ^ 2 + y ^ 2)) in *. exists (- y / r), (x / r), 0. split; [|field; lra].
        replace (- y / r * (- y / r) + x / r * (x / r) + 0 * 0) with ((x ^ 2 + y ^ 2) / (r * r)) by (field; lra). rewrite R2. field. lra. }
      destruct N as (u & v & w & N1 & N2). exists (u, v, w). split; [exact N1|]. split; [exact N2|]. unfold vadd, vscale. apply f_equal2; [apply f_equal2|]; ring.
    - assert (S : 0 < sin th) by (apply sin_gt_0; lra). pose proof (sc1 th) as SC. exists (vscale (/ sin th) (vsub q (vscale (cos th) p))). destruct p as [[x y] z], q as [[x' y'] z']. unfold is_unit, vdot in *. cbn [vscale vsub vadd fst snd] in *. split; [|split].
      + replace (/ sin th * (x' - cos th * x) * (/ sin th * (x' - cos th * x)) + / sin th * (y' - cos th * y) * (/ sin th * (y' - cos th * y)) + / sin th * (z' - cos th * z) * (/ sin th * (z' - cos th * z))) with (((x' * x' + y' * y' + z' * z') - 2 * cos th * (x * x' + y * y' + z * z') + cos th * cos th * (x * x + y * y + z * z)) / (sin th * sin th)) by (field; lra).
        rewrite Hp, Hq, <- C. replace (1 - 2 * cos th * cos th + cos th * cos th * 1) with (sin th * sin th) by lra. field. lra.
      + replace (x * (/ sin th * (x' - cos th * x)) + y * (/ sin th * (y' - cos th * y)) + z * (/ sin th * (z' - cos th * z))) with (/ sin th * ((x * x' + y * y' + z * z') - cos th * (x * x + y * y + z * z))) by ring. rewrite Hp, <- C. ring.
      + apply f_equal2; [apply f_equal2|]; field; lra. }
  destruct M as (n & Hn & Hpn & Hq'). exists (fun x => vadd (vscale (cos x) p) (vscale (sin x) n)). split; [|split; [exact Hq'|split]].
  - rewrite cos_0, sin_0. destruct p as [[? ?] ?], n as [[? ?] ?]. unfold vadd, vscale. apply f_equal2; [apply f_equal2|]; ring.
  - intros x. pose proof (sc1 x) as SC. clear Hq' C. destruct p as [[p1 p2] p3], n as [[n1 n2] n3]. unfold is_unit, vdot, vadd, vscale in *. replace ((cos x * p1 + sin x * n1) * (cos x * p1 + sin x * n1) + (cos x * p2 + sin x * n2) * (cos x * p2 + sin x * n2) + (cos x * p3 + sin x * n3) * (cos x * p3 + sin x * n3)) with (cos x * cos x * (p1 * p1 + p2 * p2 + p3 * p3) + sin x * sin x * (n1 * n1 + n2 * n2 + n3 * n3) + 2 * cos x * sin x * (p1 * n1 + p2 * n2 + p3 * n3)) by ring. rewrite Hp, Hn, Hpn. lra.
  - intros x y. pose proof (chord_lon (x - y)) as CL. pose proof (sc1 (x - y)) as SD. pose proof (sc1 x) as SX. pose proof (sc1 y) as SY. rewrite <- (sqrt_pow2 (Rabs (x - y))) by apply Rabs_pos. rewrite pow2_abs. unfold vdist3, vnorm. apply sqrt_le_1_alt. apply Rle_trans with (2 := CL). right. clear Hq' C CL.
    destruct p as [[p1 p2] p3], n as [[n1 n2] n3]. unfold is_unit, vdot, vadd, vscale, vsub in *. set (dc := cos x - cos y). set (ds := sin x - sin y).
    transitivity (dc * dc * (p1 * p1 + p2 * p2 + p3 * p3) + ds * ds * (n1 * n1 + n2 * n2 + n3 * n3) + 2 * dc * ds * (p1 * n1 + p2 * n2 + p3 * n3)); [unfold dc, ds; ring|]. rewrite Hp, Hn, Hpn. pose proof (cos_minus x y) as CM. unfold dc, ds. replace ((cos (x - y) - 1) ^ 2 + sin (x - y) ^ 2) with (2 - 2 * cos (x - y)) by lra. rewrite CM. lra.
Qed.
(** ** Walks on the surface *)
Section Walks.
Variables (a f : R).
Hypothesis Ha : 0 < a.
Hypothesis F : 0 <= f <= 1 / 100.
Let b := a * (1 - f).
Let e2 := f * (2 - f).
Notation nrm := (nrm a f).
(** back from the sphere *)
Definition unn (p : vec3) : vec3 := (a * fst (fst p), a * snd (fst p), a * (1 - f) * snd p).
Lemma unn_nrm p : unn (nrm p) = p.
Proof. destruct p as [[x y] z]. unfold unn, L_short6.nrm. cbn [fst snd]. apply f_equal2; [apply f_equal2|]; field; lra. Qed.
Lemma nrm_unn p : nrm (unn p) = p.
Proof. destruct p as [[x y] z]. unfold unn, L_short6.nrm. cbn [fst snd]. apply f_equal2; [apply f_equal2|]; field; lra. Qed.
Lemma unn_on p : is_unit p -> on_ellipsoid a b (unn p).
Proof. destruct p as [[x y] z]. unfold is_unit, vdot, on_ellipsoid, unn, b. cbn [fst snd]. intros H. rewrite <- H. field. lra. Qed.
Lemma e2r : 0 <= e2 <= 2 / 100. Proof. unfold e2. nra. Qed.
Lemma unn_dist p q : vdist3 (unn p) (unn q) <= a * vdist3 p q.
Proof. pose proof (dist_nrm a f Ha F (unn p) (unn q)) as D. rewrite !nrm_unn in D. fold e2 in D. pose proof (dist_le e2 p q e2r) as L. rewrite D in L. apply Rmult_le_reg_l with (/ a); [apply Rinv_0_lt_compat; lra|]. replace (/ a * (a * vdist3 p q)) with (vdist3 p q) by (field; lra). unfold Rdiv in L. lra. Qed.
Definition walk (d : R -> vec3) (L : R) (P Q : vec3) : Prop :=
  0 <= L /\ d 0 = P /\ d L = Q /\ (forall x, 0 <= x <= L -> on_ellipsoid a b (d x)) /\ (forall x y, 0 <= x <= L -> 0 <= y <= L -> vdist3 (d x) (d y) <= Rabs (x - y)).
Lemma walk_join d1 L1 d2 L2 P Q T : walk d1 L1 P Q -> walk d2 L2 Q T -> exists d, walk d (L1 + L2) P T.
Proof.
  intros (H1 & A1 & B1 & O1 & D1) (H2 & A2 & B2 & O2 & D2). exists (fun x => if Rle_dec x L1 then d1 x else d2 (x - L1)). split; [lra|]. split; [destruct (Rle_dec 0 L1); [exact A1|lra]|]. split; [|split].
  - destruct (Rle_dec (L1 + L2) L1) as [X|X]; [|replace (L1 + L2 - L1) with L2 by ring; exact B2]. assert (L2 = 0) by lra. subst L2. rewrite Rplus_0_r, B1, <- A2, B2. reflexivity.
  - intros x Hx. destruct (Rle_dec x L1); [apply O1; lra|apply O2; lra].
  - assert (CR : forall x y, 0 <= x <= L1 -> L1 < y <= L1 + L2 -> vdist3 (d1 x) (d2 (y - L1)) <= y - x).
    { intros x y Hx Hy. eapply Rle_trans; [apply (vdist3_triangle _ Q)|]. pose proof (D1 x L1 Hx ltac:(lra)) as U. rewrite B1 in U. pose proof (D2 0 (y - L1) ltac:(lra) ltac:(lra)) as V. rewrite A2 in V. rewrite Rabs_left1 in U by lra. rewrite Rabs_left1 in V by lra. lra. }
    intros x y Hx Hy. destruct (Rle_dec x L1) as [X|X], (Rle_dec y L1) as [Y|Y].
    + apply D1; lra.
    + rewrite Rabs_left1 by lra. pose proof (CR x y ltac:(lra) ltac:(lra)). lra.
    + rewrite L_aer.vdist3_sym, Rabs_right by lra. apply CR; lra.
    + pose proof (D2 (x - L1) (y - L1) ltac:(lra) ltac:(lra)) as Q'. replace (x - L1 - (y - L1)) with (x - y) in Q' by ring. exact Q'.
Qed.
Lemma walk_back d L P Q : walk d L P Q -> exists d', walk d' L Q P.
Proof.
  intros (H & A & B & O & D). exists (fun x => d (L - x)). split; [exact H|]. split; [rewrite Rminus_0_r; exact B|]. split; [replace (L - L) with 0 by ring; exact A|]. split; [intros x Hx; apply O; lra|].
  intros x y Hx Hy. pose proof (D (L - x) (L - y) ltac:(lra) ltac:(lra)) as K. replace (L - x - (L - y)) with (- (x - y)) in K by ring. now rewrite Rabs_Ropp in K.
Qed.
Lemma walk_geo c t s : unit_geodesic a b c t -> 0 <= s -> walk c s (c 0) (c s).
Proof. intros G Hs. split; [exact Hs|]. split; [reflexivity|]. split; [reflexivity|]. split; [intros x _; apply (G x)|]. intros x y _ _. apply (pos_lip a b c t G). Qed.
(** two close points *)
Lemma ang_near P Q : on_ellipsoid a b P -> on_ellipsoid a b Q -> unit_angle (nrm P) (nrm Q) <= 204 / 100 * (vdist3 P Q / a).
Proof. intros HP HQ. pose proof (angle_chord _ _ (on_unit a f Ha F P HP) (on_unit a f Ha F Q HQ)) as A. pose proof (dist_chord e2 (nrm P) (nrm Q) e2r) as D. unfold e2 in D. rewrite (dist_nrm a f Ha F) in D. lra. Qed.
Lemma walk_link P Q : on_ellipsoid a b P -> on_ellipsoid a b Q -> vdist3 P Q <= a -> exists d L, walk d L P Q /\ L <= 204 / 100 * vdist3 P Q.
Proof.
  intros HP HQ HD. pose proof (ang_near P Q HP HQ) as A. pose proof (on_unit a f Ha F P HP) as UP. pose proof (on_unit a f Ha F Q HQ) as UQ. pose proof pi_gt as PG. pose proof (L_nvector.angle_range _ _ UP UQ) as RG.
  assert (D1 : vdist3 P Q / a <= 1) by (apply Rmult_le_reg_r with a; [exact Ha|]; unfold Rdiv; rewrite Rmult_assoc, Rinv_l by lra; lra).
  destruct (gc_link _ _ UP UQ ltac:(lra)) as (g & G0 & G1 & GU & GD). set (th := unit_angle (nrm P) (nrm Q)) in *. exists (fun x => unn (g (x / a))), (a * th). split.
  - split; [apply Rmult_le_pos; lra|]. split; [unfold Rdiv; rewrite Rmult_0_l, G0; apply unn_nrm|]. split; [replace (a * th / a) with th by (field; lra); rewrite G1; apply unn_nrm|]. split; [intros x _; apply unn_on, GU|].
    intros x y _ _. eapply Rle_trans; [apply unn_dist|]. pose proof (GD (x / a) (y / a)) as K. replace (x / a - y / a) with ((x - y) * / a) in K by (unfold Rdiv; ring). rewrite Rabs_mult, (Rabs_right (/ a)) in K by (left; apply Rinv_0_lt_compat; lra). apply Rle_trans with (a * (Rabs (x - y) * / a)); [apply Rmult_le_compat_l; lra|]. right. field. lra.
  - apply Rle_trans with (a * (204 / 100 * (vdist3 P Q / a))); [apply Rmult_le_compat_l; lra|]. right. field. lra.
Qed.
Theorem no_shorter_near c t s d L Q : unit_geodesic a b c t -> 0 <= s <= 27 / 10 * a -> on_ellipsoid a b Q -> walk d L (c 0) Q -> s <= L + 27 / 10 * vdist3 Q (c s).
Proof.
  intros G Hs HQ W. pose proof (L_aer.vnorm_nonneg (vsub Q (c s))) as V0. fold (vdist3 Q (c s)) in V0. pose proof W as (HL & _). destruct (Req_dec s 0) as [Z|Z]; [rewrite Z in *; lra|].
  destruct (Rle_dec (vdist3 Q (c s)) a) as [Y|Y]; [|lra]. destruct (walk_link Q (c s) HQ ltac:(apply (G s)) Y) as (d2 & L2 & W2 & B2). destruct (walk_join _ _ _ _ _ _ _ W W2) as (d3 & H3 & A3 & B3 & O3 & D3).
  pose proof (no_shorter a f Ha F c t s d3 (L + L2) G ltac:(lra) H3 A3 B3 O3 D3). lra.
Qed.
Theorem geo_walk_near c t s Q : unit_geodesic a b c t -> 0 <= s -> on_ellipsoid a b Q -> vdist3 Q (c s) <= a -> exists d L, walk d L (c 0) Q /\ L <= s + 204 / 100 * vdist3 Q (c s).
Proof.
  intros G Hs HQ Y. destruct (walk_link Q (c s) HQ ltac:(apply (G s)) Y) as (d2 & L2 & W2 & B2). destruct (walk_back _ _ _ _ W2) as (d2' & W2'). destruct (walk_join _ _ _ _ _ _ _ (walk_geo c t s G Hs) W2') as (d3 & W3). exists d3, (s + L2). split; [exact W3|lra].
Qed.
(** ** Long geodesics end far away *)
Theorem far_end c t s : unit_geodesic a b c t -> 27 / 10 * a < s <= 315 / 100 * a -> 2672 / 1000 <= unit_angle (nrm (c 0)) (nrm (c s)).
Proof.
  intros G Hs. destruct (G 0) as (O0 & _ & U0 & _). destruct (frame a f Ha F (c 0) (t 0) O0 U0 (tangent a f Ha F c t G 0)) as (x2 & y2 & z2 & c0 & s1 & W2 & W1 & Z1 & Z2 & P0 & T0).
  pose proof (on_unit a f Ha F _ O0) as UN. pose proof (on_unit a f Ha F (c s) ltac:(apply (G s))) as UE. destruct (nrm (c 0)) as [[x1 y1] z1] eqn:EN. cbn [fst snd] in *. assert (V1 : x1 ^ 2 + y1 ^ 2 + z1 ^ 2 = 1) by (unfold is_unit, vdot in UN; lra).
  pose proof (F1 f F) as F'. pose proof (geodesic_exists a f x1 y1 z1 x2 y2 z2 c0 s1 Ha F' V1 W2 W1 Z1 Z2) as GE. set (hh := ex_h a f c0 s1 Ha F') in GE. pose proof (ex_h_len a f c0 s1 Ha F') as HLn. pose proof (ex_h_val a f c0 s1 Ha F') as HV. fold hh in HLn, HV.
  assert (H0 : hh 0 = 0) by (rewrite <- (c_len_0 a f c0 s1) at 1; apply HLn). assert (Bp : 0 < b <= a) by (unfold b; nra).
  destruct (geodesic_unique a b (proj1 Bp) (proj2 Bp) c t _ _ G GE ltac:(cbv beta; rewrite H0; symmetry; exact P0) ltac:(cbv beta; rewrite H0; symmetry; exact T0) s) as [UQ _]. cbv beta in UQ.
  set (sg := hh s) in *. assert (LS : c_len a f c0 s1 sg = s) by apply HV.
  assert (SG : 0 < sg). { apply Rnot_le_lt. intros X. pose proof (inv_mvt (c_len a f c0 s1) (fun s => a * c_u f c0 s1 s) (ex_len a f c0 s1 F') sg 0) as (k & _ & E). rewrite c_len_0, LS in E. pose proof (c_u_pos f c0 s1 F' k). assert (0 <= a * c_u f c0 s1 k) by (apply Rmult_le_pos; lra). assert (0 <= a * c_u f c0 s1 k * (0 - sg)) by (apply Rmult_le_pos; lra). lra. }
  pose proof e2r as He. assert (SS : s / a = Sf e2 z1 sg z2). { rewrite <- LS. rewrite (len_S a f z1 z2 c0 s1 F Z1 Z2 sg ltac:(lra)). unfold e2. field. lra. }
  assert (SA : 27 / 10 < s / a <= 315 / 100). { assert (E : s = s / a * a) by (field; lra). split; [apply Rmult_lt_reg_r with a|apply Rmult_le_reg_r with a]; lra. }
  assert (ZZ : z1 ^ 2 + z2 ^ 2 <= 1). { assert (Lg : (z1 * x2 - x1 * z2) ^ 2 + (z1 * y2 - y1 * z2) ^ 2 + (x1 * y2 - y1 * x2) ^ 2 = (x1 ^ 2 + y1 ^ 2 + z1 ^ 2) * (x2 ^ 2 + y2 ^ 2 + z2 ^ 2) - (x1 * x2 + y1 * y2 + z1 * z2) ^ 2) by ring.
    rewrite Z1, Z2. replace ((c0 * sin s1) ^ 2 + (c0 * cos s1) ^ 2) with (c0 ^ 2 * (sin s1 * sin s1 + cos s1 * cos s1)) by ring. rewrite sc1. pose proof (c_s0_sq x1 y1 z1 x2 y2 z2 c0 s1 V1 W2 W1 Z1 Z2) as Q. pose proof (pow2_ge_0 (c_s0 x1 y1 x2 y2)). lra. }
  pose proof (Sf_hi e2 He z1 sg z2 ltac:(lra) ZZ) as SH. pose proof (Sf_lo e2 He z1 sg z2 ltac:(lra)) as SGe. rewrite <- SS in SH, SGe.
  set (X := c_X x1 x2 sg). set (Y := c_Y y1 y2 sg). set (Z := c_Z z1 z2 sg). set (th := c_th f x1 y1 x2 y2 c0 s1 sg).
  assert (ON : onS X Y Z). { unfold onS. destruct (c_rels x1 y1 z1 x2 y2 z2 V1 W2 W1 sg) as (Q & _). exact Q. }
  assert (TB : Rabs th <= 102 / 10000 * sg).
  { unfold th. rewrite (th_J f x1 y1 z1 x2 y2 z2 c0 s1 F Z1 Z2) by lra. fold e2. rewrite Rabs_Ropp, Rabs_mult. pose proof (Jf_le e2 He z1 sg z2 ltac:(lra)) as J. assert (C1 : Rabs (c_s0 x1 y1 x2 y2) <= 1). { pose proof (c_s0_sq x1 y1 z1 x2 y2 z2 c0 s1 V1 W2 W1 Z1 Z2) as Q. pose proof (pow2_ge_0 c0). rewrite <- (pow2_abs (c_s0 x1 y1 x2 y2)) in Q. pose proof (Rabs_pos (c_s0 x1 y1 x2 y2)). nra. }
    pose proof (Rabs_pos (Jf e2 z1 sg z2)). pose proof (Rabs_pos (c_s0 x1 y1 x2 y2)). assert (102 / 200 * e2 * sg <= 102 / 10000 * sg) by (apply Rmult_le_compat_r; lra). set (j := Rabs (Jf e2 z1 sg z2)) in *. set (k := Rabs (c_s0 x1 y1 x2 y2)) in *. assert (k * j <= 1 * j) by (apply Rmult_le_compat_r; lra). lra. }
  assert (EP : nrm (c s) = (rX X Y th, rY X Y th, Z)). { rewrite UQ. unfold L_short6.nrm, c_pos, rot, rX, rY. fold X Y Z th. cbn [fst snd]. apply f_equal2; [apply f_equal2|]; field; lra. }
  pose proof (rot_angle X Y Z th ON) as RA. rewrite <- EP in RA. assert (UQ' : is_unit (X, Y, Z)) by now apply unit_v.
  pose proof (L_vin3.angle_triangle (x1, y1, z1) (nrm (c s)) (X, Y, Z) UN UE UQ') as TR. rewrite (L_nvector.angle_sym (nrm (c s)) (X, Y, Z)) in TR.
  assert (CQ : unit_angle (x1, y1, z1) (X, Y, Z) = acos (cos sg)). { unfold unit_angle, vdot. f_equal. unfold X, Y, Z, c_X, c_Y, c_Z. replace (x1 * (x1 * cos sg + x2 * sin sg) + y1 * (y1 * cos sg + y2 * sin sg) + z1 * (z1 * cos sg + z2 * sin sg)) with ((x1 ^ 2 + y1 ^ 2 + z1 ^ 2) * cos sg + (x1 * x2 + y1 * y2 + z1 * z2) * sin sg) by ring. rewrite V1, W1. ring. }
  rewrite CQ in TR. pose proof pi_gt as PG. apply Rnot_lt_le. intros XX. destruct (Rle_dec sg PI) as [LP|LP].
  - rewrite acos_cos in TR by lra. lra.
  - replace (cos sg) with (cos (2 * PI - sg)) in TR by (rewrite cos_minus, cos_2PI, sin_2PI; ring). pose proof pi_lt. rewrite acos_cos in TR by lra. lra.
Qed.
(** ** The point of the sphere that goes with given coordinates *)
Lemma nrm_surface phi l : 0 < cos phi -> nrm (surface_point a b phi l) = unit_normal (M_vincenty.reduced_lat f phi) l.
Proof.
  intros HC. destruct (L_vin2.reduced_reduces f phi ltac:(lra) HC) as (h & Hh & A & B). set (U := M_vincenty.reduced_lat f phi) in *.
  assert (HQ : sqrt ((a * cos phi) ^ 2 + (b * sin phi) ^ 2) = a * h). { replace ((a * cos phi) ^ 2 + (b * sin phi) ^ 2) with ((a * h) ^ 2); [rewrite sqrt_pow2; [reflexivity|apply Rmult_le_pos; lra]|]. unfold b. replace (a * (1 - f) * sin phi) with (a * ((1 - f) * sin phi)) by ring. rewrite <- A, <- B. pose proof (sc1 U) as S. replace ((a * (cos U * h)) ^ 2 + (a * (sin U * h)) ^ 2) with ((sin U * sin U + cos U * cos U) * (a * h) ^ 2) by ring. rewrite S. ring. }
  unfold surface_point, L_short6.nrm, unit_normal. rewrite HQ. cbn [fst snd]. rewrite <- B. assert (SP : sin phi = sin U * h / (1 - f)) by (rewrite A; field; lra). rewrite SP. unfold b. apply f_equal2; [apply f_equal2|]; field; repeat split; nra.
Qed.
Lemma nrm_sep phi1 l1 phi2 l2 : 0 < cos phi1 -> 0 < cos phi2 -> unit_angle (nrm (surface_point a b phi1 l1)) (nrm (surface_point a b phi2 l2)) <= unit_angle (unit_normal phi1 l1) (unit_normal phi2 l2) + 4 * f.
Proof.
  intros H1 H2. rewrite !nrm_surface by assumption. pose proof (L_vin7.reduced_near f phi1 l1 F H1) as A. pose proof (L_vin7.reduced_near f phi2 l2 F H2) as B.
  assert (UU : forall p l, is_unit (unit_normal p l)). { intros p l. unfold is_unit, unit_normal, vdot. pose proof (sc1 p) as P. pose proof (sc1 l) as Q. replace (cos p * cos l * (cos p * cos l) + cos p * sin l * (cos p * sin l) + sin p * sin p) with (cos p * cos p * (sin l * sin l + cos l * cos l) + sin p * sin p) by ring. rewrite Q. lra. }
  pose proof (L_vin3.angle_triangle (unit_normal (M_vincenty.reduced_lat f phi1) l1) (unit_normal phi1 l1) (unit_normal (M_vincenty.reduced_lat f phi2) l2) (UU _ _) (UU _ _) (UU _ _)) as T1.
  pose proof (L_vin3.angle_triangle (unit_normal phi1 l1) (unit_normal phi2 l2) (unit_normal (M_vincenty.reduced_lat f phi2) l2) (UU _ _) (UU _ _) (UU _ _)) as T2. rewrite (L_nvector.angle_sym (unit_normal (M_vincenty.reduced_lat f phi1) l1) (unit_normal phi1 l1)) in T1. lra.
Qed.
End Walks.
