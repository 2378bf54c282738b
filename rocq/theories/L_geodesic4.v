(** geodesic_direct against the exact geodesic. *)
From Coq Require Import Reals Lra Lia Psatz.
From Coquelicot Require Import Coquelicot.
From Verif Require Import PyMath M_karney L_PyMath L_karney L_karney2 L_karney3 L_karney4 L_karney5 L_series1 L_series2 L_series3 Spec Spec_geodesic L_aer L_geodesic1 L_geodesic2 L_geodesic3.
From Verif Require L_vincenty4 L_latitude2.
Open Scope R_scope.

(** Positions and directions of the exact curve in geodetic terms. *)
Section At.
Variables (a f x1 y1 z1 x2 y2 z2 c0 s1 : R).
Hypothesis Ha : 0 < a.
Hypothesis Hf : 0 <= f < 1.
Hypothesis U1 : x1 ^ 2 + y1 ^ 2 + z1 ^ 2 = 1.
Hypothesis U2 : x2 ^ 2 + y2 ^ 2 + z2 ^ 2 = 1.
Hypothesis U12 : x1 * x2 + y1 * y2 + z1 * z2 = 0.
Hypothesis HZ1 : z1 = c0 * sin s1.
Hypothesis HZ2 : z2 = c0 * cos s1.
Lemma at_frame s be l az phi : let u := c_u f c0 s1 s in let th := c_th f x1 y1 x2 y2 c0 s1 s in
  (c_X x1 x2 s, c_Y y1 y2 s, c_Z z1 z2 s) = unit_normal be l ->
  (c_X' x1 x2 s, c_Y' y1 y2 s, c_Z' z1 z2 s) = heading_vector be l az ->
  u * sin phi = sin be -> u * cos phi = (1 - f) * cos be ->
  c_pos a f x1 y1 z1 x2 y2 z2 c0 s1 s = surface_point a (a * (1 - f)) phi (l + th) /\
  c_tan f x1 y1 z1 x2 y2 z2 c0 s1 s = heading_vector phi (l + th) az.
Proof.
  intros u th HP HV HS HC. pose proof (c_u_pos f c0 s1 Hf s) as Up. fold u in Up.
  unfold unit_normal in HP. apply pair_equal_spec in HP. destruct HP as [HP Pz]. apply pair_equal_spec in HP. destruct HP as [Px Py].
  unfold heading_vector, north_axis, east_axis, vadd, vscale in HV. apply pair_equal_spec in HV. destruct HV as [HV Vz]. apply pair_equal_spec in HV. destruct HV as [Vx Vy].
  destruct (c_rels x1 y1 z1 x2 y2 z2 U1 U2 U12 s) as (_ & _ & _ & R4). rewrite Px, Py, Vx, Vy in R4.
  assert (S0 : c_s0 x1 y1 x2 y2 = cos be * sin az).
  { rewrite <- R4. pose proof (sc1 l) as Q. assert (Q' : sin l ^ 2 = 1 - cos l ^ 2) by nra. ring [Q']. }
  assert (GH : c_g f x1 y1 x2 y2 c0 s1 s * cos be = sin az * (1 - u)).
  { pose proof (c_u_sq f z1 z2 c0 s1 Hf HZ1 HZ2 s) as Q. rewrite Pz in Q. fold u in Q. unfold c_g. fold u. rewrite S0. pose proof (sc1 be).
    apply Rmult_eq_reg_r with (1 + u); [|lra]. replace (f * (2 - f) * (cos be * sin az) / (1 + u) * cos be * (1 + u)) with (sin az * (f * (2 - f) * cos be ^ 2)) by (field; lra).
    replace (f * (2 - f) * cos be ^ 2) with (1 - u ^ 2); [ring|]. rewrite Q. nra. }
  set (g := c_g f x1 y1 x2 y2 c0 s1 s) in *.
  assert (SP : sin phi = sin be / u) by (rewrite <- HS; field; lra). assert (CP : cos phi = (1 - f) * cos be / u) by (rewrite <- HC; field; lra).
  split.
  - unfold c_pos, rot, surface_point. fold th. rewrite Px, Py, Pz.
    replace ((a * cos phi) ^ 2 + (a * (1 - f) * sin phi) ^ 2) with ((a * (1 - f) / u) ^ 2).
    + rewrite sqrt_pow2 by (apply Rmult_le_pos; [nra|left; apply Rinv_0_lt_compat; lra]). rewrite cos_plus, sin_plus, SP, CP. apply f_equal2; [apply f_equal2|]; field; repeat split; lra.
    + rewrite SP, CP. pose proof (sc1 be) as Q. replace ((a * ((1 - f) * cos be / u)) ^ 2 + (a * (1 - f) * (sin be / u)) ^ 2) with ((a * (1 - f) / u) ^ 2 * (sin be * sin be + cos be * cos be)) by (field; lra). rewrite Q. ring.
  - unfold c_tan, rot, heading_vector, north_axis, east_axis, vadd, vscale. fold th u g. rewrite Px, Py, Vx, Vy, Vz, cos_plus, sin_plus, SP, CP.
    assert (Gx : forall r, g * (cos be * r) = sin az * (1 - u) * r) by (intros r; rewrite <- GH; ring). rewrite !Gx.
    apply f_equal2; [apply f_equal2|]; field; lra.
Qed.
End At.

(** The auxiliary sphere at the end of the arc (as in Direct_sphere). *)
Lemma sphere_end U l az ss1 cs1 ca0 sg : 0 < cos U -> ca0 = hypot (cos az) (sin az * sin U) ->
  ca0 * ss1 = sin U -> ca0 * cs1 = cos az * cos U -> ss1 ^ 2 + cs1 ^ 2 = 1 -> (ca0 = 0 -> ss1 = 0 /\ cs1 = 1) ->
  let ss2 := ss1 * cos sg + cs1 * sin sg in let cs2 := cs1 * cos sg - ss1 * sin sg in
  let sa0 := sin az * cos U in let cb2 := hypot sa0 (ca0 * cs2) in let E := copysign 1 sa0 in
  let omg := E * (sg - (atan2 ss2 cs2 - atan2 ss1 cs1) + (atan2 (E * (sa0 * ss2)) cs2 - atan2 (E * (sin az * cos U * sin U)) (cos az * cos U))) in
  cb2 <> 0 -> let p2 := atan2 (ca0 * ss2) cb2 in let az2 := atan2 sa0 (ca0 * cs2) in
  sin p2 = ca0 * ss2 /\ cos p2 = cb2 /\
  L_vincenty4.gc_move U l az sg = unit_normal p2 (l + omg) /\ gc_tangent U l az sg = heading_vector p2 (l + omg) az2.
Proof.
  intros Hcb HC0 S1 S2 S3 S4 ss2 cs2 sa0 cb2 E omg N p2 az2. unfold sa0 in *.
  pose proof (sc1 U) as SU. pose proof (sc1 az) as SA.
  assert (Hb : sin U ^ 2 + cos U ^ 2 = 1) by (rewrite <- SU; ring).
  assert (Ha : sin az ^ 2 + cos az ^ 2 = 1) by (rewrite <- SA; ring).
  destruct (hypot_unfold (cos az) (sin az * sin U)) as [C0 C0s]. rewrite <- HC0 in C0, C0s.
  pose proof (alg_lat (sin U) (cos U) (sin az) (cos az) ss1 cs1 sg ca0 Hb Ha C0 C0s S3) as AL.
  pose proof (alg_lon (sin U) (cos U) (sin az) (cos az) ss1 cs1 sg ca0 Hb Ha Hcb C0 C0s S1 S2 S3 S4 N) as AO.
  pose proof (alg_z (sin U) (cos U) (cos az) ss1 cs1 sg ca0 S1 S2) as AZ.
  pose proof (alg_w (sin U) (cos U) (cos az) ss1 cs1 sg ca0 S1 S2) as AW.
  fold ss2 cs2 in AL, AO, AZ, AW. fold cb2 in AL, AO. fold E omg in AO.
  assert (HB : 0 <= cb2) by apply hypot_nonneg. destruct AO as [OC OS].
  assert (GX : L_vincenty4.gc_move U l az sg = (cos l * (cos U * cos sg - sin U * cos az * sin sg) - sin l * (sin az * sin sg),
                                    sin l * (cos U * cos sg - sin U * cos az * sin sg) + cos l * (sin az * sin sg), ca0 * ss2)).
  { unfold L_vincenty4.gc_move. cbn. rewrite AZ. apply f_equal2; [apply f_equal2|]; ring. }
  assert (HP : hypot cb2 (ca0 * ss2) = 1) by (apply hypot_uniq; nra).
  pose proof (hypot_cos_atan2 (ca0 * ss2) cb2) as PC. pose proof (hypot_sin_atan2 (ca0 * ss2) cb2) as PS. rewrite HP, Rmult_1_l in PC, PS. fold p2 in PC, PS.
  pose proof (hypot_cos_atan2 (sin az * cos U) (ca0 * cs2)) as ZC. pose proof (hypot_sin_atan2 (sin az * cos U) (ca0 * cs2)) as ZS.
  rewrite hypot_comm in ZC, ZS. fold cb2 in ZC, ZS. fold az2 in ZC, ZS.
  split; [exact PS|]. split; [exact PC|].
  unfold heading_vector, unit_normal, north_axis, east_axis. rewrite PC, PS, (cos_plus l omg), (sin_plus l omg).
  set (X := cos U * cos sg - sin U * cos az * sin sg) in *. set (Y := sin az * sin sg) in *.
  split.
  - rewrite GX. apply f_equal2; [apply f_equal2|]; [rewrite <- OC, <- OS; ring|rewrite <- OC, <- OS; ring|reflexivity].
  - assert (A : forall x y, cb2 ^ 2 * x = cb2 ^ 2 * y -> x = y).
    { intros x y Q. apply Rmult_eq_reg_l with (cb2 ^ 2); [exact Q|]. apply pow_nonzero. exact N. }
    assert (CB : cb2 ^ 2 = X ^ 2 + Y ^ 2).
    { transitivity ((cb2 * cos omg) ^ 2 + (cb2 * sin omg) ^ 2); [|rewrite OC, OS; reflexivity].
      pose proof (sc1 omg) as Q. replace ((cb2 * cos omg) ^ 2 + (cb2 * sin omg) ^ 2) with (cb2 ^ 2 * (sin omg * sin omg + cos omg * cos omg)) by ring. rewrite Q. ring. }
    assert (Qg : sin sg ^ 2 = 1 - cos sg ^ 2) by (pose proof (sc1 sg); nra). assert (Ha2 : cos az ^ 2 = 1 - sin az ^ 2) by lra. assert (Hb2 : sin U ^ 2 = 1 - cos U ^ 2) by lra.
    unfold gc_tangent. cbn -[pow].
    apply f_equal2; [apply f_equal2|]; apply A.
    + match goal with |- _ = ?r => replace r with
        (- (cb2 * cos az2) * (ca0 * ss2) * (cos l * (cb2 * cos omg) - sin l * (cb2 * sin omg)) - (cb2 * sin az2) * (sin l * (cb2 * cos omg) + cos l * (cb2 * sin omg))) by ring end.
      rewrite OC, OS, ZC, ZS, AZ, AW, CB. unfold X, Y. ring [Ha2 Hb2 Qg].
    + match goal with |- _ = ?r => replace r with
        (- (cb2 * cos az2) * (ca0 * ss2) * (sin l * (cb2 * cos omg) + cos l * (cb2 * sin omg)) + (cb2 * sin az2) * (cos l * (cb2 * cos omg) - sin l * (cb2 * sin omg))) by ring end.
      rewrite OC, OS, ZC, ZS, AZ, AW, CB. unfold X, Y. ring [Ha2 Hb2 Qg].
    + match goal with |- _ = ?r => replace r with (cb2 ^ 2 * (cb2 * cos az2)) by ring end. rewrite ZC, AW. ring.
Qed.

(** Two positions, or two directions, that differ only in longitude. *)
Lemma chord_lon d : (cos d - 1) ^ 2 + sin d ^ 2 <= d ^ 2.
Proof.
  pose proof (sc1 d) as Q. replace ((cos d - 1) ^ 2 + sin d ^ 2) with ((sin d * sin d + cos d * cos d) + 1 - 2 * cos d) by ring. rewrite Q.
  replace d with (2 * (d / 2)) at 1 by field. rewrite cos_2a_sin. pose proof (L_latitude2.sin_lip (d / 2) 0) as L. rewrite sin_0, !Rminus_0_r in L.
  assert (S : sin (d / 2) ^ 2 <= (d / 2) ^ 2) by (rewrite <- (pow2_abs (sin (d / 2))), <- (pow2_abs (d / 2)); apply pow_incr; split; [apply Rabs_pos|exact L]). nra.
Qed.
Lemma rot_close d p r : 0 <= r -> px p ^ 2 + py p ^ 2 <= r ^ 2 -> vdist3 (rot d p) p <= r * Rabs d.
Proof.
  intros Hr H. destruct p as [[x y] z]. cbn [px py fst snd] in H. unfold vdist3. apply vnorm_le_sq; [apply Rmult_le_pos; [exact Hr|apply Rabs_pos]|].
  rewrite Rpow_mult_distr, pow2_abs. cbn [rot vsub vdot]. pose proof (chord_lon d) as C.
  match goal with |- ?l <= _ => replace l with (((cos d - 1) ^ 2 + sin d ^ 2) * (x ^ 2 + y ^ 2)) by ring end.
  apply Rle_trans with (d ^ 2 * r ^ 2); [|lra]. apply Rmult_le_compat; try assumption; apply Rplus_le_le_0_compat; apply pow2_ge_0.
Qed.
Lemma surface_rot a b phi l d : surface_point a b phi (l + d) = rot d (surface_point a b phi l).
Proof. unfold surface_point, rot. rewrite cos_plus, sin_plus. apply f_equal2; [apply f_equal2|]; ring. Qed.
Lemma heading_rot phi l az d : heading_vector phi (l + d) az = rot d (heading_vector phi l az).
Proof. unfold heading_vector, north_axis, east_axis, vadd, vscale, rot. rewrite cos_plus, sin_plus. apply f_equal2; [apply f_equal2|]; ring. Qed.
Lemma surface_close a b phi l l' : 0 < b -> 0 < a -> vdist3 (surface_point a b phi l') (surface_point a b phi l) <= a * Rabs (l' - l).
Proof.
  intros Hb Ha. replace l' with (l + (l' - l)) at 1 by ring. rewrite surface_rot. apply rot_close; [lra|]. unfold surface_point, px, py. cbn [fst snd].
  set (w := (a * cos phi) ^ 2 + (b * sin phi) ^ 2). assert (W : 0 < w).
  { unfold w. pose proof (sc1 phi). destruct (Req_dec (cos phi) 0) as [Z|Z].
    - rewrite Z in *. assert (0 < sin phi ^ 2) by nra. rewrite Rpow_mult_distr. assert (0 < b ^ 2) by nra. nra.
    - assert (0 < (a * cos phi) ^ 2) by (apply pow2_gt_0; apply Rmult_integral_contrapositive; split; lra). pose proof (pow2_ge_0 (b * sin phi)). lra. }
  set (N := a ^ 2 / sqrt w). assert (N2 : N ^ 2 = a ^ 4 / w).
  { unfold N, Rdiv. rewrite Rpow_mult_distr, pow_inv, <- (Rsqr_pow2 (sqrt w)), Rsqr_sqrt by lra. ring. }
  replace ((N * cos phi * cos l) ^ 2 + (N * cos phi * sin l) ^ 2) with (N ^ 2 * cos phi ^ 2 * (sin l * sin l + cos l * cos l)) by ring. rewrite sc1, N2, Rmult_1_r.
  apply Rmult_le_reg_r with w; [exact W|]. replace (a ^ 4 / w * cos phi ^ 2 * w) with (a ^ 2 * (a * cos phi) ^ 2) by (field; lra). apply Rmult_le_compat_l; [nra|]. unfold w. pose proof (pow2_ge_0 (b * sin phi)). lra.
Qed.
Lemma heading_close phi az l l' : vdist3 (heading_vector phi l' az) (heading_vector phi l az) <= Rabs (l' - l).
Proof.
  replace l' with (l + (l' - l)) at 1 by ring. rewrite heading_rot. replace (Rabs (l' - l)) with (1 * Rabs (l' - l)) by ring. apply rot_close; [lra|].
  unfold heading_vector, north_axis, east_axis, vadd, vscale, px, py. cbn [fst snd].
  match goal with |- ?e <= _ => replace e with ((cos az ^ 2 * sin phi ^ 2 + sin az ^ 2) * (sin l * sin l + cos l * cos l)) by ring end.
  rewrite sc1. pose proof (sc1 az) as A. pose proof (sc1 phi) as P. assert (0 <= cos az ^ 2) by apply pow2_ge_0. assert (sin phi ^ 2 <= 1) by nra. nra.
Qed.
Lemma surface_period a b phi l (k : Z) : surface_point a b phi (l + IZR k * (2 * PI)) = surface_point a b phi l.
Proof. unfold surface_point. now rewrite cos_period_Z, sin_period_Z. Qed.
Lemma heading_period phi l az (k : Z) : heading_vector phi (l + IZR k * (2 * PI)) az = heading_vector phi l az.
Proof. unfold heading_vector, north_axis, east_axis. now rewrite cos_period_Z, sin_period_Z. Qed.
Lemma vdist3_triangle p q r : vdist3 p r <= vdist3 p q + vdist3 q r.
Proof.
  unfold vdist3. replace (vsub p r) with (vadd (vsub p q) (vsub q r)); [apply vnorm_triangle|].
  destruct p as [[? ?] ?], q as [[? ?] ?], r as [[? ?] ?]. cbn. apply f_equal2; [apply f_equal2|]; ring.
Qed.
(** Along a unit-speed geodesic. *)
Lemma pos_lip a b c t : unit_geodesic a b c t -> forall x y, vdist3 (c x) (c y) <= Rabs (x - y).
Proof.
  intros H x y. replace (Rabs (x - y)) with (1 * Rabs (x - y)) by ring. apply (speed_bound c t 1).
  - intros s. apply (H s).
  - intros s. rewrite unit_norm; [lra|apply (H s)].
Qed.
Lemma tan_lip a b c t : 0 < b <= a -> unit_geodesic a b c t -> forall x y, vdist3 (t x) (t y) <= a ^ 3 / b ^ 4 * Rabs (x - y).
Proof.
  intros Hb H x y.
  assert (X : forall s, exists v, vderive t s v /\ vnorm v <= a ^ 3 / b ^ 4).
  { intros s. destruct (H s) as (O & D & U & k & K). exists (vscale k (gradient a b (c s))). split; [exact K|]. rewrite vnorm_scale.
    pose proof (curvature a b (proj1 Hb) (proj2 Hb) c t H s k K) as C. pose proof (k_bound a b (proj1 Hb) (proj2 Hb) (c s) (t s) k O U C) as B1.
    pose proof (Gnorm a b (proj1 Hb) (proj2 Hb) (c s)) as B2. pose proof (on_norm a b (proj1 Hb) (proj2 Hb) (c s) O) as B3.
    assert (P : 0 < / b ^ 2) by (apply Rinv_0_lt_compat; nra).
    replace (a ^ 3 / b ^ 4) with (/ b ^ 2 * a ^ 2 * (/ b ^ 2 * a)) by (field; lra). apply Rmult_le_compat; [apply Rabs_pos|apply vnorm_nonneg|exact B1|nra]. }
  set (v := fun s => (Derive (fun x => fst (fst (t x))) s, Derive (fun x => snd (fst (t x))) s, Derive (fun x => snd (t x)) s) : vec3).
  assert (V : forall s w, vderive t s w -> v s = w).
  { intros s [[w1 w2] w3] (D1 & D2 & D3). cbn [fst snd] in *. unfold v. apply f_equal2; [apply f_equal2|]; apply is_derive_unique, is_derive_Reals; assumption. }
  apply (speed_bound t v).
  - intros s. destruct (X s) as (w & D & _). now rewrite (V s w D).
  - intros s. destruct (X s) as (w & D & L). now rewrite (V s w D).
Qed.
