(** Lemmas on geodetic/spherical conversion (Vermeille 2002). *)
From Coq Require Import Lia Psatz.
From Verif Require Import PyMath L_PyMath M_ellipsoid M_ecef M_spherical Spec L_ell.
From Verif Require L_ecef.
Open Scope R_scope.

Lemma cube_root_pos x : 0 < x -> 0 < cube_root x /\ cube_root x ^ 3 = x.
Proof.
  intros Hx. unfold cube_root. destruct (Rlt_dec 0 x) as [_|]; [|contradiction].
  split; [apply exp_pos|]. rewrite <- Rpower_pow by apply exp_pos. rewrite Rpower_mult.
  replace (1 / 3 * INR 3) with 1 by (simpl; field). apply Rpower_1, Hx.
Qed.

(** The chain of auxiliary quantities; E stands for the squared eccentricity. *)
Section Verm.
Variables p q E : R.
Hypothesis Hp : 0 <= p.
Hypothesis Hq : 0 <= q.
Hypothesis HE : 0 <= E.
Hypothesis Hout : E ^ 2 < p + q.
Let r := (p + q - E ^ 2) / 6.
Let s := E ^ 2 * p * q / 4 / r ^ 3.
Let t := cube_root (1 + s + sqrt (2 * s + s ^ 2)).
Let u := r * (1 + t + 1 / t).
Let v := sqrt (u ^ 2 + q * E ^ 2).
Let w := E * (u + v - q) / 2 / v.
Let k := sqrt (u + v + w ^ 2) - w.

Let Hr : 0 < r. Proof. unfold r. lra. Qed.
Let Hs : 0 <= s.
Proof.
  pose proof Hr. unfold s. apply Rmult_le_pos; [|left; apply Rinv_0_lt_compat, pow_lt; lra].
  apply Rmult_le_pos; [|lra]. repeat apply Rmult_le_pos; try lra; apply pow2_ge_0.
Qed.
Let Ht : 0 < t /\ t ^ 3 = 1 + s + sqrt (2 * s + s ^ 2).
Proof. apply cube_root_pos. pose proof Hs. pose proof (sqrt_pos (2 * s + s ^ 2)). lra. Qed.
Let Htt : t ^ 3 + 1 / t ^ 3 = 2 + 2 * s.
Proof.
  destruct Ht as [H1 H2]. pose proof Hs. set (g := sqrt (2 * s + s ^ 2)) in *.
  assert (G : g ^ 2 = 2 * s + s ^ 2) by (apply pow2_sqrt; nra).
  assert (0 <= g) by apply sqrt_pos.
  assert (I : 1 / t ^ 3 = 1 + s - g).
  { rewrite H2. apply Rmult_eq_reg_r with (1 + s + g); [|lra]. replace (1 / (1 + s + g) * (1 + s + g)) with 1 by (field; lra).
    replace ((1 + s - g) * (1 + s + g)) with ((1 + s) ^ 2 - g ^ 2) by ring. rewrite G. ring. }
  rewrite I, H2. ring.
Qed.
Let Hu : 0 < u.
Proof.
  pose proof Hr. destruct Ht as [H1 _]. unfold u. apply Rmult_lt_0_compat; [assumption|].
  assert (0 < 1 / t) by (apply Rdiv_lt_0_compat; lra). lra.
Qed.
Let Hcubic : u ^ 3 - 3 * r * u ^ 2 - E ^ 2 * p * q / 2 = 0.
Proof.
  pose proof Hr. destruct Ht as [H1 _].
  assert (S : E ^ 2 * p * q = 4 * r ^ 3 * s) by (unfold s; field; lra).
  rewrite S. transitivity (r ^ 3 * (t ^ 3 + 1 / t ^ 3 - 2 - 2 * s)); [unfold u; field; lra|].
  rewrite Htt. ring.
Qed.
Let Hv : u <= v /\ v ^ 2 = u ^ 2 + q * E ^ 2.
Proof.
  pose proof Hu. assert (0 <= q * E ^ 2) by (apply Rmult_le_pos; [lra|apply pow2_ge_0]).
  pose proof (pow2_ge_0 u).
  split; [|unfold v; apply pow2_sqrt; lra].
  rewrite <- (sqrt_pow2 u) at 1 by lra. apply sqrt_le_1; lra.
Qed.
Lemma verm_k_pos : 0 < k.
Proof.
  pose proof Hu. destruct Hv as [V1 _]. unfold k. pose proof (pow2_ge_0 w).
  assert (Rabs w < sqrt (u + v + w ^ 2)).
  { rewrite <- sqrt_Rsqr_abs. apply sqrt_lt_1; unfold Rsqr; try nra. }
  pose proof (Rle_abs w). lra.
Qed.
Lemma verm_quartic : k ^ 2 * p + (k + E) ^ 2 * q = k ^ 2 * (k + E) ^ 2.
Proof.
  pose proof Hu. destruct Hv as [V1 V2]. pose proof (pow2_ge_0 w).
  assert (K : k ^ 2 + 2 * w * k - (u + v) = 0).
  { assert (S : (k + w) ^ 2 = u + v + w ^ 2).
    { unfold k. replace (sqrt (u + v + w ^ 2) - w + w) with (sqrt (u + v + w ^ 2)) by ring. apply pow2_sqrt. lra. }
    nra. }
  assert (W : 2 * w * v = E * (u + v - q)) by (unfold w; field; lra).
  (* resolvent: the k^2 coefficient *)
  assert (Cq : - 2 * u + 4 * w * (E - w) = - (p + q - E ^ 2)).
  { assert (v ^ 2 * (- 2 * u + 4 * w * (E - w) + (p + q - E ^ 2)) = 0).
    { transitivity (- 2 * u * v ^ 2 + 2 * (2 * w * v) * E * v - (2 * w * v) ^ 2 + (p + q - E ^ 2) * v ^ 2); [ring|].
      rewrite W. transitivity (- 2 * u * v ^ 2 + E ^ 2 * (v ^ 2 - (u - q) ^ 2) + (p + q - E ^ 2) * v ^ 2); [ring|].
      rewrite V2. pose proof Hcubic as C. unfold r in C.
      transitivity (- 2 * (u ^ 3 - 3 * ((p + q - E ^ 2) / 6) * u ^ 2 - E ^ 2 * p * q / 2)); [field|]. rewrite C. ring. }
    assert (0 < v ^ 2) by (apply pow_lt; lra). nra. }
  assert (F : k ^ 2 * (k + E) ^ 2 - (k ^ 2 * p + (k + E) ^ 2 * q)
    = (k ^ 2 + 2 * w * k - (u + v)) * (k ^ 2 + 2 * (E - w) * k + (v - u))).
  { transitivity (k ^ 4 + 2 * E * k ^ 3 + (- 2 * u + 4 * w * (E - w)) * k ^ 2 - 2 * E * q * k - E ^ 2 * q); [rewrite Cq; ring|].
    transitivity (k ^ 4 + 2 * E * k ^ 3 + (- 2 * u + 4 * w * (E - w)) * k ^ 2 + (2 * (2 * w * v) - 2 * E * (u + v)) * k - (v ^ 2 - u ^ 2)); [|ring].
    rewrite W, V2. ring. }
  rewrite K, Rmult_0_l in F. lra.
Qed.
End Verm.

(** The positive root of the quartic is unique. *)
Lemma quartic_unique p q E k1 k2 : 0 <= p -> 0 <= q -> 0 <= E -> 0 < k1 -> 0 < k2 ->
  k1 ^ 2 * p + (k1 + E) ^ 2 * q = k1 ^ 2 * (k1 + E) ^ 2 ->
  k2 ^ 2 * p + (k2 + E) ^ 2 * q = k2 ^ 2 * (k2 + E) ^ 2 -> k1 = k2.
Proof.
  assert (W : forall k1 k2, 0 <= p -> 0 <= q -> 0 <= E -> 0 < k1 -> k1 < k2 ->
    k1 ^ 2 * p + (k1 + E) ^ 2 * q = k1 ^ 2 * (k1 + E) ^ 2 ->
    k2 ^ 2 * p + (k2 + E) ^ 2 * q = k2 ^ 2 * (k2 + E) ^ 2 -> False).
  { clear. intros k1 k2 Hp Hq HE H1 H2 Q1 Q2.
    assert (D : forall k, 0 < k -> k ^ 2 * p + (k + E) ^ 2 * q = k ^ 2 * (k + E) ^ 2 -> p / (k + E) ^ 2 + q / k ^ 2 = 1).
    { intros k Hk Q. replace (p / (k + E) ^ 2 + q / k ^ 2) with ((k ^ 2 * p + (k + E) ^ 2 * q) / (k ^ 2 * (k + E) ^ 2)) by (field; lra).
      rewrite Q. field. lra. }
    apply D in Q1; [|lra]. apply D in Q2; [|lra].
    assert (M : forall x y z, 0 <= x -> 0 < y -> y < z -> x / z ^ 2 <= x / y ^ 2 /\ (0 < x -> x / z ^ 2 < x / y ^ 2)).
    { intros x y z Hx Hy Hz. assert (L : / z ^ 2 < / y ^ 2).
      { apply Rinv_lt_contravar; [apply Rmult_lt_0_compat; apply pow_lt; lra|]. nra. }
      unfold Rdiv. split; [|intros]; nra. }
    destruct (M p (k1 + E) (k2 + E) Hp ltac:(lra) ltac:(lra)) as [A1 A2].
    destruct (M q k1 k2 Hq H1 H2) as [B1 B2].
    destruct (Rle_lt_or_eq_dec _ _ Hp) as [P|P]; [specialize (A2 P); lra|].
    destruct (Rle_lt_or_eq_dec _ _ Hq) as [P'|P']; [specialize (B2 P'); lra|].
    rewrite <- P, <- P' in Q1. unfold Rdiv in Q1. lra. }
  intros Hp Hq HE H1 H2 Q1 Q2. destruct (Rtotal_order k1 k2) as [L|[L|L]]; [|exact L|]; exfalso.
  - exact (W k1 k2 Hp Hq HE H1 L Q1 Q2).
  - exact (W k2 k1 Hp Hq HE H2 L Q2 Q1).
Qed.

(** Half-angle form of the latitude. *)
Lemma half_angle H t : 0 < H -> - PI < t < PI -> 2 * atan2 (H * sin t) (H * cos t + H) = t.
Proof.
  intros HH Ht. pose proof PI_RGT_0. set (g := t / 2).
  assert (Eg : t = 2 * g) by (unfold g; field).
  assert (Cg : 0 < cos g) by (apply cos_gt_0; unfold g; lra).
  replace (H * sin t) with ((2 * H * cos g) * sin g) by (rewrite Eg, sin_2a; ring).
  replace (H * cos t + H) with ((2 * H * cos g) * cos g).
  2: { rewrite Eg, cos_2a_cos. ring. }
  rewrite atan2_polar; [rewrite Eg; ring| |unfold g; lra].
  apply Rmult_lt_0_compat; lra.
Qed.

(** Everything spherical2geodetic computes from R = radius cos, Z. *)
Definition vk (e : Ellipsoid) (Rr Z : R) : R :=
  let E := eccentricity e ^ 2 in
  let p_0 := Rr ^ 2 / semimajor_axis e ^ 2 in
  let q_0 := (1 - E) / semimajor_axis e ^ 2 * Z ^ 2 in
  let r_0 := (p_0 + q_0 - E ^ 2) / 6 in
  let s_0 := E ^ 2 * p_0 * q_0 / 4 / r_0 ^ 3 in
  let t_0 := cube_root (1 + s_0 + sqrt (2 * s_0 + s_0 ^ 2)) in
  let u_0 := r_0 * (1 + t_0 + 1 / t_0) in
  let v_0 := sqrt (u_0 ^ 2 + q_0 * E ^ 2) in
  let w_0 := E * (u_0 + v_0 - q_0) / 2 / v_0 in
  sqrt (u_0 + v_0 + w_0 ^ 2) - w_0.

Lemma coslat_eq t : - PI/2 <= t <= PI/2 -> sqrt (1 - sin t ^ 2) = cos t.
Proof. intros Ht. apply sqrt_uniq; [apply cos_ge_0; lra|]. pose proof (sc1 t). simpl. lra. Qed.

Lemma s2g_form lat lon radius ell deg : - PI/2 <= rad_in deg lat <= PI/2 ->
  let e := resolve_ellipsoid ell in
  let E := eccentricity e ^ 2 in
  let Rr := radius * cos (rad_in deg lat) in let Z := radius * sin (rad_in deg lat) in
  let k := vk e Rr Z in let D := k * Rr / (k + E) in
  spherical2geodetic lat lon radius ell deg
  = (deg_out deg (2 * atan2 Z (D + hypot D Z)), lon, (k + E - 1) / k * hypot D Z).
Proof.
  intros Hl. cbv zeta. unfold spherical2geodetic. cbv zeta. rewrite (coslat_eq _ Hl), deg_out_rad_in.
  set (e := resolve_ellipsoid ell). set (E := eccentricity e ^ 2).
  replace (eccentricity e ^ 4) with (E ^ 2) by (unfold E; ring).
  set (c := cos (rad_in deg lat)). set (sn := sin (rad_in deg lat)).
  assert (Ek : vk e (radius * c) (radius * sn) = sqrt (let E := eccentricity e ^ 2 in
  let p_0 := radius ^ 2 * c ^ 2 / semimajor_axis e ^ 2 in
  let q_0 := (1 - E) / semimajor_axis e ^ 2 * (radius * sn) ^ 2 in
  let r_0 := (p_0 + q_0 - E ^ 2) / 6 in
  let s_0 := E ^ 2 * p_0 * q_0 / 4 / r_0 ^ 3 in
  let t_0 := cube_root (1 + s_0 + sqrt (2 * s_0 + s_0 ^ 2)) in
  let u_0 := r_0 * (1 + t_0 + 1 / t_0) in
  let v_0 := sqrt (u_0 ^ 2 + q_0 * E ^ 2) in
  let w_0 := E * (u_0 + v_0 - q_0) / 2 / v_0 in u_0 + v_0 + w_0 ^ 2) - (let E := eccentricity e ^ 2 in
  let p_0 := radius ^ 2 * c ^ 2 / semimajor_axis e ^ 2 in
  let q_0 := (1 - E) / semimajor_axis e ^ 2 * (radius * sn) ^ 2 in
  let r_0 := (p_0 + q_0 - E ^ 2) / 6 in
  let s_0 := E ^ 2 * p_0 * q_0 / 4 / r_0 ^ 3 in
  let t_0 := cube_root (1 + s_0 + sqrt (2 * s_0 + s_0 ^ 2)) in
  let u_0 := r_0 * (1 + t_0 + 1 / t_0) in
  let v_0 := sqrt (u_0 ^ 2 + q_0 * E ^ 2) in
  E * (u_0 + v_0 - q_0) / 2 / v_0)).
  { unfold vk. cbv zeta. replace ((radius * c) ^ 2) with (radius ^ 2 * c ^ 2) by ring. reflexivity. }
  cbv zeta in Ek. fold E in Ek. rewrite <- Ek.
  replace (vk e (radius * c) (radius * sn) * radius * c) with (vk e (radius * c) (radius * sn) * (radius * c)) by ring.
  reflexivity.
Qed.

Section Core.
Variable ell : option Ellipsoid.
Hypothesis Hok : ell_ok ell.
Let a := ell_a ell.
Let b := ell_b ell.
Let e := resolve_ellipsoid ell.
Let E := eccentricity e ^ 2.
Let HE : E = 1 - b ^ 2 / a ^ 2. Proof. apply ell_e2, Hok. Qed.
Let Hb : 0 < b. Proof. apply ell_pos, Hok. Qed.
Let Ha : b <= a. Proof. apply ell_pos, Hok. Qed.
Let HE01 : 0 <= E < 1. Proof. rewrite HE. apply ecc_sq_range; [exact Hb|exact Ha]. Qed.

(** Outside the evolute's circumscribed ellipse. *)
Definition far (Rr Z : R) : Prop := E ^ 2 < Rr ^ 2 / a ^ 2 + (1 - E) / a ^ 2 * Z ^ 2.

Lemma vk_props Rr Z : far Rr Z ->
  let k := vk e Rr Z in 0 < k /\
  k ^ 2 * (Rr ^ 2 / a ^ 2) + (k + E) ^ 2 * ((1 - E) / a ^ 2 * Z ^ 2) = k ^ 2 * (k + E) ^ 2.
Proof.
  intros Hf. pose proof Hb. pose proof Ha. pose proof HE01.
  assert (A2 : 0 < / a ^ 2) by (apply Rinv_0_lt_compat, pow_lt; lra).
  assert (P : 0 <= Rr ^ 2 / a ^ 2) by (apply Rmult_le_pos; [apply pow2_ge_0|lra]).
  assert (Q : 0 <= (1 - E) / a ^ 2 * Z ^ 2) by (apply Rmult_le_pos; [apply Rmult_le_pos; lra|apply pow2_ge_0]).
  cbv zeta. unfold vk. cbv zeta. fold E. unfold e at 1. rewrite resolve_a. fold a.
  unfold e. rewrite !resolve_a. fold a.
  split; [apply (verm_k_pos _ _ E P Q ltac:(lra) Hf)|apply (verm_quartic _ _ E P Q ltac:(lra) Hf)].
Qed.

(** A geodetic position solves the quartic with k = 1 - E + h/N. *)
Lemma geodetic_quartic phi h :
  let N := a ^ 2 / hypot (a * cos phi) (b * sin phi) in
  let k := (1 - E) + h / N in
  let Rr := (N + h) * cos phi in let Z := (N * (1 - E) + h) * sin phi in
  0 < N /\ Rr = (k + E) * N * cos phi /\ Z = k * N * sin phi /\
  k ^ 2 * (Rr ^ 2 / a ^ 2) + (k + E) ^ 2 * ((1 - E) / a ^ 2 * Z ^ 2) = k ^ 2 * (k + E) ^ 2.
Proof.
  pose proof Hb. pose proof Ha. pose proof (acbs_pos a b phi Hb Ha) as W.
  cbv zeta. set (W0 := hypot (a * cos phi) (b * sin phi)) in *.
  assert (HN : 0 < a ^ 2 / W0) by (apply Rdiv_lt_0_compat; [apply pow_lt; lra|lra]).
  set (N := a ^ 2 / W0) in *. set (k := 1 - E + h / N).
  assert (R1 : (N + h) * cos phi = (k + E) * N * cos phi) by (unfold k; field; lra).
  assert (Z1 : (N * (1 - E) + h) * sin phi = k * N * sin phi) by (unfold k; field; lra).
  repeat split; try assumption. rewrite R1, Z1.
  transitivity (k ^ 2 * (k + E) ^ 2 * (N ^ 2 / a ^ 2 * (cos phi ^ 2 + (1 - E) * sin phi ^ 2))); [field; lra|].
  assert (NN : N ^ 2 / a ^ 2 * (cos phi ^ 2 + (1 - E) * sin phi ^ 2) = 1); [|rewrite NN; ring].
  assert (E1 : cos phi ^ 2 + (1 - E) * sin phi ^ 2 = W0 ^ 2 / a ^ 2).
  { unfold W0. rewrite hypot_pow2, HE. field. lra. }
  rewrite E1. unfold N. field. split; lra.
Qed.

(** Exactness: the computed geodetic coordinates are those of the point. *)
Lemma s2g_exact Rr Z : far Rr Z -> 0 <= Rr ->
  let k := vk e Rr Z in let D := k * Rr / (k + E) in let H := hypot D Z in
  let phi := 2 * atan2 Z (D + H) in let h := (k + E - 1) / k * H in
  let N := a ^ 2 / hypot (a * cos phi) (b * sin phi) in
  - PI/2 <= phi <= PI/2 /\ Rr = (N + h) * cos phi /\ Z = (N * (1 - E) + h) * sin phi /\ 0 < N * (1 - E) + h.
Proof.
  intros Hf HR. pose proof Hb. pose proof Ha. pose proof HE01. pose proof PI_RGT_0.
  destruct (vk_props Rr Z Hf) as [Hk Hq]. cbv zeta in Hk, Hq. cbv zeta.
  set (k := vk e Rr Z) in *. set (D := k * Rr / (k + E)).
  assert (HD : 0 <= D) by (apply Rmult_le_pos; [nra|left; apply Rinv_0_lt_compat; lra]).
  assert (NZ : Rr <> 0 \/ Z <> 0).
  { destruct (Req_dec Rr 0) as [->|]; [|now left]. destruct (Req_dec Z 0) as [->|]; [|now right].
    exfalso. unfold far in Hf. unfold Rdiv in Hf. pose proof (pow2_ge_0 E). nra. }
  assert (ER : Rr = D * (k + E) / k) by (unfold D; field; lra).
  assert (NZ' : D <> 0 \/ Z <> 0).
  { destruct NZ as [N1|N1]; [left|now right]. intros D0. apply N1. rewrite ER, D0. unfold Rdiv. ring. }
  pose proof (hypot_pos D Z NZ') as HH. set (H' := hypot D Z) in *.
  set (t := atan2 Z D).
  assert (Ct : D = H' * cos t) by (symmetry; apply hypot_cos_atan2).
  assert (St : Z = H' * sin t) by (symmetry; apply hypot_sin_atan2).
  assert (Rt : - PI/2 <= t <= PI/2) by (apply atan2_right, HD).
  assert (Ephi : 2 * atan2 Z (D + H') = t).
  { rewrite St at 1. rewrite Ct at 1. apply half_angle; [exact HH|lra]. }
  rewrite Ephi.
  set (W0 := hypot (a * cos t) (b * sin t)). pose proof (acbs_pos a b t Hb Ha) as HW. fold W0 in HW.
  (* the prime vertical radius is H'/k *)
  assert (EN : a ^ 2 / W0 = H' / k).
  { assert (S2 : (H' / k) ^ 2 * W0 ^ 2 = (a ^ 2) ^ 2).
    { unfold W0. rewrite hypot_pow2.
      replace ((a * cos t) ^ 2 + (b * sin t) ^ 2) with (a ^ 2 * (cos t ^ 2 + (1 - E) * sin t ^ 2)) by (rewrite HE; field; lra).
      rewrite ER, Ct, St in Hq.
      assert (Q2 : (H' / k) ^ 2 * (cos t ^ 2 + (1 - E) * sin t ^ 2) / a ^ 2 * (k ^ 2 * (k + E) ^ 2) = k ^ 2 * (k + E) ^ 2).
      { rewrite <- Hq at 2. field. lra. }
      assert (KE : 0 < k ^ 2 * (k + E) ^ 2) by (apply Rmult_lt_0_compat; apply pow_lt; lra).
      assert (Q3 : (H' / k) ^ 2 * (cos t ^ 2 + (1 - E) * sin t ^ 2) / a ^ 2 = 1).
      { apply Rmult_eq_reg_r with (k ^ 2 * (k + E) ^ 2); [rewrite Q2; ring|lra]. }
      transitivity (a ^ 4 * ((H' / k) ^ 2 * (cos t ^ 2 + (1 - E) * sin t ^ 2) / a ^ 2)); [field; lra|]. rewrite Q3. ring. }
    assert (HK : 0 < H' / k) by (apply Rdiv_lt_0_compat; lra).
    assert (S1 : H' / k * W0 = a ^ 2).
    { assert (0 < H' / k * W0) by (apply Rmult_lt_0_compat; lra). assert (0 < a ^ 2) by (apply pow_lt; lra).
      assert ((H' / k * W0) ^ 2 = (a ^ 2) ^ 2) by (rewrite <- S2; ring). nra. }
    rewrite <- S1. field. lra. }
  rewrite EN. split; [exact Rt|].
  assert (X : H' / k * (1 - E) + (k + E - 1) / k * H' = H') by (field; lra).
  rewrite X. repeat split; [|exact St|exact HH].
  rewrite ER, Ct at 1. field. lra.
Qed.

(** Uniqueness: geodetic coordinates above the evolute come back. *)
Lemma s2g_inverse phi h : let N := a ^ 2 / hypot (a * cos phi) (b * sin phi) in
  let Rr := (N + h) * cos phi in let Z := (N * (1 - E) + h) * sin phi in
  - PI/2 <= phi <= PI/2 -> 0 < N * (1 - E) + h -> far Rr Z ->
  let k := vk e Rr Z in let D := k * Rr / (k + E) in
  2 * atan2 Z (D + hypot D Z) = phi /\ (k + E - 1) / k * hypot D Z = h.
Proof.
  intros N Rr Z Hphi Hh Hf. pose proof Hb. pose proof Ha. pose proof HE01. pose proof PI_RGT_0.
  destruct (geodetic_quartic phi h) as (HN & ER & EZ & Q). cbv zeta in HN, ER, EZ, Q. fold N in HN, ER, EZ, Q.
  fold Rr in ER, Q. fold Z in EZ, Q. set (k0 := 1 - E + h / N) in *.
  assert (Hk0 : 0 < k0).
  { unfold k0. replace (1 - E + h / N) with ((N * (1 - E) + h) / N) by (field; lra). apply Rdiv_lt_0_compat; lra. }
  destruct (vk_props Rr Z Hf) as [Hk Hq]. cbv zeta in Hk, Hq. cbv zeta.
  assert (A2 : 0 < / a ^ 2) by (apply Rinv_0_lt_compat, pow_lt; lra).
  assert (Ek : vk e Rr Z = k0).
  { apply (quartic_unique (Rr ^ 2 / a ^ 2) ((1 - E) / a ^ 2 * Z ^ 2) E); try lra; try assumption.
    - apply Rmult_le_pos; [apply pow2_ge_0|lra].
    - apply Rmult_le_pos; [apply Rmult_le_pos; lra|apply pow2_ge_0]. }
  rewrite Ek.
  assert (ED : k0 * Rr / (k0 + E) = (k0 * N) * cos phi) by (rewrite ER; field; lra).
  assert (EZ' : Z = (k0 * N) * sin phi) by exact EZ.
  assert (KN : 0 < k0 * N) by (apply Rmult_lt_0_compat; lra).
  assert (EH : hypot (k0 * Rr / (k0 + E)) Z = k0 * N) by (rewrite ED, EZ'; apply hypot_polar; lra).
  rewrite EH, ED. split.
  - rewrite EZ'. apply half_angle; [exact KN|lra].
  - unfold k0. field. unfold k0 in Hk0. split; [lra|]. intros X. apply Rlt_not_eq in Hk0. apply Hk0.
    replace (1 - E + h / N) with ((N * (1 - E) + h) / N) by (field; lra). rewrite <- X at 1. field_simplify; lra.
Qed.
End Core.
