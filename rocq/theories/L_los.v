(** Lemmas on line-of-sight intersection. *)
From Coq Require Import Lia Psatz.
From Verif Require Import PyMath L_PyMath M_ellipsoid M_ecef M_enu M_los Spec Spec_los L_ell.
From Verif Require L_ecef L_ecefrt L_ecefsurj L_frames L_ecefprops.
Open Scope R_scope.

(** Quadratic form of the spheroid with axes a, c. *)
Definition qf (a c : R) (p q : vec3) : R :=
  let '(x, y, z) := p in let '(u, v, w) := q in x * u / a ^ 2 + y * v / a ^ 2 + z * w / c ^ 2.

Lemma on_ell_qf a c p : on_ellipsoid a c p <-> qf a c p p = 1.
Proof. destruct p as [[x y] z]. unfold on_ellipsoid, qf. replace (x * x) with (x ^ 2) by ring.
  replace (y * y) with (y ^ 2) by ring. replace (z * z) with (z ^ 2) by ring. tauto. Qed.

Lemma qf_ray a c p q t : qf a c (vadd p (vscale t q)) (vadd p (vscale t q))
  = qf a c p p + 2 * t * qf a c p q + t ^ 2 * qf a c q q.
Proof. destruct p as [[x y] z], q as [[u v] w]. unfold qf, vadd, vscale. unfold Rdiv. ring. Qed.

Lemma qf_pos a c q : 0 < a -> 0 < c -> vdot q q = 1 -> 0 < qf a c q q.
Proof.
  destruct q as [[u v] w]. unfold vdot, qf. intros Ha Hc H.
  assert (A : 0 < / a ^ 2) by (apply Rinv_0_lt_compat, pow_lt, Ha).
  assert (C : 0 < / c ^ 2) by (apply Rinv_0_lt_compat, pow_lt, Hc).
  unfold Rdiv. pose proof (Rle_0_sqr u). pose proof (Rle_0_sqr v). pose proof (Rle_0_sqr w). unfold Rsqr in *.
  destruct (Rle_lt_dec (w * w) (1/2)); nra.
Qed.

(** Roots of A t^2 + 2 B t + C in the order used by the code. *)
Section Quad.
Variables A B C : R.
Hypothesis HA : 0 < A.
Let disc := B ^ 2 - A * C.
Let d := (- B - sqrt disc) / A.
Lemma quad_eq t : C + 2 * t * B + t ^ 2 * A = ((A * t + B) ^ 2 - disc) / A.
Proof. unfold disc. field. lra. Qed.
Lemma quad_root t : C + 2 * t * B + t ^ 2 * A = 0 <-> (A * t + B) ^ 2 = disc.
Proof.
  rewrite quad_eq. split; intros H.
  - assert ((A * t + B) ^ 2 - disc = 0); [|lra].
    apply Rmult_eq_reg_r with (/ A); [|apply Rinv_neq_0_compat; lra]. unfold Rdiv in H. lra.
  - rewrite H. unfold Rdiv. ring.
Qed.
Lemma quad_none t : disc < 0 -> C + 2 * t * B + t ^ 2 * A <> 0.
Proof. intros H E. apply quad_root in E. pose proof (pow2_ge_0 (A * t + B)). lra. Qed.
Lemma quad_d : 0 <= disc -> C + 2 * d * B + d ^ 2 * A = 0.
Proof. intros H. apply quad_root. unfold d. replace (A * ((- B - sqrt disc) / A) + B) with (- sqrt disc) by (field; lra).
  replace ((- sqrt disc) ^ 2) with (sqrt disc ^ 2) by ring. apply pow2_sqrt, H. Qed.
Lemma quad_first t : 0 <= disc -> C + 2 * t * B + t ^ 2 * A = 0 -> d <= t.
Proof.
  intros H E. apply quad_root in E. pose proof (sqrt_pos disc) as S. pose proof (pow2_sqrt disc H) as Q.
  assert (- sqrt disc <= A * t + B) by nra. unfold d. apply Rmult_le_reg_l with A; [exact HA|].
  replace (A * ((- B - sqrt disc) / A)) with (- B - sqrt disc) by (field; lra). lra.
Qed.
(** From outside (C >= 0) a negative first root means there is no positive one. *)
Lemma quad_behind t : 0 <= disc -> 0 <= C -> d < 0 -> 0 < t -> C + 2 * t * B + t ^ 2 * A <> 0.
Proof.
  intros H HC Hd Ht E. pose proof (quad_d H) as E0.
  assert (P : (t - d) * (2 * B + A * (t + d)) = 0) by nra.
  assert (S : 2 * B + A * (t + d) = 0) by (apply Rmult_integral in P; destruct P; lra).
  assert (C = A * (t * d)) by nra. assert (t * d < 0) by nra. nra.
Qed.
(** From strictly inside the first root is always behind. *)
Lemma quad_inside : C < 0 -> 0 <= disc /\ d < 0.
Proof.
  intros HC. assert (D : B ^ 2 < disc) by (unfold disc; nra). pose proof (pow2_ge_0 B).
  split; [lra|]. pose proof (sqrt_pos disc) as S. pose proof (pow2_sqrt disc ltac:(lra)) as Q.
  assert (- B < sqrt disc) by nra. unfold d. apply Rmult_lt_reg_l with A; [exact HA|].
  replace (A * ((- B - sqrt disc) / A)) with (- B - sqrt disc) by (field; lra). lra.
Qed.
End Quad.

Lemma sight_unit phi lam az tilt : vdot (sight phi lam az tilt) (sight phi lam az tilt) = 1.
Proof.
  unfold sight, vadd, vscale, east_axis, north_axis, up_axis, unit_normal, vdot.
  pose proof (sc1 phi). pose proof (sc1 lam). pose proof (sc1 az). pose proof (sc1 tilt).
  set (E := sin tilt * sin az). set (N := sin tilt * cos az). set (U := - cos tilt).
  transitivity (E * E + N * N + U * U).
  - transitivity (E * E * (sin lam * sin lam + cos lam * cos lam)
      + N * N * (cos phi * cos phi + sin phi * sin phi * (sin lam * sin lam + cos lam * cos lam))
      + U * U * (sin phi * sin phi + cos phi * cos phi * (sin lam * sin lam + cos lam * cos lam))
      + 2 * N * U * (sin phi * cos phi) * (1 - (sin lam * sin lam + cos lam * cos lam))); [ring|].
    rewrite H0. replace (cos phi * cos phi) with (1 - sin phi * sin phi) by lra. ring.
  - unfold E, N, U. transitivity (sin tilt * sin tilt * (sin az * sin az + cos az * cos az) + cos tilt * cos tilt); [ring|].
    rewrite H1. lra.
Qed.

Definition eq_dir (deg : bool) (lat0 lon0 az tilt : R) : vec3 :=
  sight (as_rad deg lat0) (as_rad deg lon0) (as_rad deg az) (as_rad deg tilt).

Lemma code_dir (lat0 lon0 az tilt : R) (deg : bool) :
  (let '(e1, n1, u1) := aer2enu az (if deg then tilt - 90 else tilt - PI / 2) 1 deg in
   enu2uvw e1 n1 u1 lat0 lon0 deg) = eq_dir deg lat0 lon0 az tilt.
Proof.
  unfold eq_dir, sight. change as_rad with rad_in. unfold aer2enu. cbv zeta.
  rewrite L_frames.enu2uvw_spec. change as_rad with rad_in. cbv zeta.
  assert (E : rad_in deg (if deg then tilt - 90 else tilt - PI / 2) = rad_in deg tilt - PI / 2)
    by (destruct deg; cbn; unfold radians; lra).
  rewrite E. rewrite cos_minus, sin_minus, cos_PI2, sin_PI2.
  apply f_equal2; [|apply f_equal2]; apply f_equal2; try reflexivity; ring.
Qed.

(** The value computed by [los_hit] in terms of the quadratic. *)
Lemma los_hit_form lat0 lon0 h0 az tilt ell deg : ell_ok ell ->
  let a := ell_a ell in let c := ell_b ell in
  let P := geodetic2ecef lat0 lon0 h0 None deg in let D := eq_dir deg lat0 lon0 az tilt in
  let A := qf a c D D in let B := qf a c P D in let C := qf a c P P - 1 in
  let d := (- B - sqrt (B ^ 2 - A * C)) / A in
  los_hit lat0 lon0 h0 az tilt ell deg
  = if Rlt_dec (B ^ 2 - A * C) 0 then None else if Rlt_dec d 0 then None else Some (d, vadd P (vscale d D)).
Proof.
  intros Hok a c P D. pose proof (ell_pos ell Hok) as [Hc Hac]. fold a c in Hc, Hac.
  assert (Hd : vdot D D = 1) by apply sight_unit.
  pose proof (qf_pos a c D ltac:(lra) Hc Hd) as HA.
  unfold los_hit. pose proof (code_dir lat0 lon0 az tilt deg) as Cd. fold D in Cd. fold P.
  destruct (aer2enu az (if deg then tilt - 90 else tilt - PI / 2) 1 deg) as [[e1 n1] u1].
  rewrite Cd. clear Cd. rewrite resolve_a, resolve_b. fold a c. clearbody P D.
  destruct D as [[u v] w], P as [[x y] z].
  cbv zeta. set (A := qf a c (u,v,w) (u,v,w)) in *. set (B := qf a c (x, y, z) (u, v, w)). set (C := qf a c (x,y,z) (x,y,z) - 1).
  match goal with |- context [sqrt ?r] => set (rad := r) end.
  assert (Er : rad = a ^ 4 * c ^ 2 * (B ^ 2 - A * C)).
  { unfold rad, A, B, C, qf. field. split; lra. }
  assert (Em : a ^ 2 * a ^ 2 * w ^ 2 + a ^ 2 * c ^ 2 * v ^ 2 + a ^ 2 * c ^ 2 * u ^ 2 = a ^ 4 * c ^ 2 * A).
  { unfold A, qf. field. split; lra. }
  assert (Ev : - a ^ 2 * a ^ 2 * w * z - a ^ 2 * c ^ 2 * v * y - a ^ 2 * c ^ 2 * u * x = - (a ^ 4 * c ^ 2) * B).
  { unfold B, qf. field. split; lra. }
  assert (K : 0 < a ^ 4 * c ^ 2) by (apply Rmult_lt_0_compat; apply pow_lt; lra).
  assert (Es : 0 <= B ^ 2 - A * C -> sqrt rad = a ^ 2 * c * sqrt (B ^ 2 - A * C)).
  { intros H. rewrite Er. replace (a ^ 4 * c ^ 2) with ((a ^ 2 * c) ^ 2) by ring.
    rewrite sqrt_mult by (try apply pow2_ge_0; lra). rewrite sqrt_pow2; [reflexivity|].
    apply Rmult_le_pos; [apply pow2_ge_0|lra]. }
  destruct (Rlt_dec (B ^ 2 - A * C) 0) as [H|H].
  - destruct (Rlt_dec rad 0) as [H'|H']; [reflexivity|]. exfalso. apply H'. rewrite Er. nra.
  - destruct (Rlt_dec rad 0) as [H'|H']; [exfalso; rewrite Er in H'; nra|].
    assert (E : (- a ^ 2 * a ^ 2 * w * z - a ^ 2 * c ^ 2 * v * y - a ^ 2 * c ^ 2 * u * x - a * a * c * sqrt rad)
      / (a ^ 2 * a ^ 2 * w ^ 2 + a ^ 2 * c ^ 2 * v ^ 2 + a ^ 2 * c ^ 2 * u ^ 2)
      = (- B - sqrt (B ^ 2 - A * C)) / A).
    { rewrite Em, Ev, Es by lra. field. repeat split; lra. }
    rewrite E. reflexivity.
Qed.

(** A surface point is recovered by ecef2geodetic with altitude 0. *)
Lemma surface_back ell deg x y z : ell_ok ell -> 1 / 100000000 < ell_b ell ->
  on_ellipsoid (ell_a ell) (ell_b ell) (x, y, z) ->
  let '(lat, lon, alt) := ecef2geodetic x y z ell deg in
  geodetic2ecef lat lon 0 ell deg = (x, y, z) /\ alt = 0 /\
  - quarter deg <= lat <= quarter deg /\ - half deg < lon <= half deg.
Proof.
  intros Hok Hb8 Hs. destruct (ell_pos ell Hok) as [Hb Ha].
  destruct (L_ecefsurj.g2e_surj ell deg x y z Hok ltac:(unfold on_ellipsoid in Hs; lra)) as (la & lo & h & H1 & H2 & H3 & H4).
  assert (h = 0).
  { pose proof (L_ecef.g2e_normal ell Hok la lo h deg) as Hn. rewrite H4 in Hn.
    destruct (L_ecef.g2e_gradient ell Hok la lo deg) as (k & K & G).
    pose proof (L_ecef.ellipsoid_support (ell_a ell) (ell_b ell) _ _ ltac:(lra) Hb (L_ecef.g2e_surface ell Hok la lo deg) Hs) as Sp.
    rewrite G, Hn in Sp. pose proof (L_ecef.unit_normal_unit (as_rad deg la) (as_rad deg lo)) as U.
    destruct (geodetic2ecef la lo 0 ell deg) as [[p q] r], (unit_normal (as_rad deg la) (as_rad deg lo)) as [[n1 n2] n3].
    unfold vadd, vsub, vscale, vdot in *.
    replace (_ + _) with (h * k * (n1 * n1 + n2 * n2 + n3 * n3)) in Sp by ring. rewrite U in Sp. assert (h <= 0) by nra. lra. }
  subst h.
  destruct (Req_dec la (quarter deg)) as [E|E]; [|destruct (Req_dec la (- quarter deg)) as [E'|E']].
  - pose proof (L_ecefrt.roundtrip_pole ell lo 0 deg false Hok ltac:(lra)) as R. cbv zeta iota in R.
    pose proof (L_ecefsurj.g2e_pole ell lo 0 deg Hok) as G1. pose proof (L_ecefsurj.g2e_pole ell 0 0 deg Hok) as G2.
    rewrite E in H4. rewrite H4 in R. rewrite R. rewrite G2, <- G1, H4.
    repeat split; try lra; destruct deg; unfold half, quarter; pose proof PI_RGT_0; lra.
  - pose proof (L_ecefrt.roundtrip_pole ell lo 0 deg true Hok ltac:(lra)) as R. cbv zeta iota in R.
    pose proof (L_ecefsurj.g2e_pole ell lo 0 deg Hok) as G1. pose proof (L_ecefsurj.g2e_pole ell 0 0 deg Hok) as G2.
    rewrite E' in H4. rewrite H4 in R. rewrite R.
    rewrite (L_ecefsurj.g2e_neg ell (quarter deg) lo 0 deg Hok), G1 in H4.
    rewrite (L_ecefsurj.g2e_neg ell (quarter deg) 0 0 deg Hok), G2.
    split; [exact H4|]. repeat split; try lra; destruct deg; unfold half, quarter; pose proof PI_RGT_0; lra.
  - pose proof (L_ecefrt.roundtrip_surface ell la lo deg Hok ltac:(lra) H2) as R. rewrite H4 in R. rewrite R.
    repeat split; try lra. exact H4.
Qed.

(** A point with non-negative altitude is outside or on the surface, and
    strictly outside for positive altitude. *)
Lemma outside_height ell lat lon h deg : ell_ok ell -> 0 <= h ->
  1 <= qf (ell_a ell) (ell_b ell) (geodetic2ecef lat lon h ell deg) (geodetic2ecef lat lon h ell deg)
  /\ (0 < h -> 1 < qf (ell_a ell) (ell_b ell) (geodetic2ecef lat lon h ell deg) (geodetic2ecef lat lon h ell deg)).
Proof.
  intros Hok Hh. destruct (ell_pos ell Hok) as [Hb Ha].
  set (n := unit_normal (as_rad deg lat) (as_rad deg lon)).
  assert (En : geodetic2ecef lat lon h ell deg = vadd (geodetic2ecef lat lon 0 ell deg) (vscale h n))
    by apply (L_ecef.g2e_normal ell Hok).
  rewrite En, qf_ray.
  pose proof (L_ecef.g2e_surface ell Hok lat lon deg) as S. apply on_ell_qf in S. rewrite S.
  destruct (L_ecef.g2e_gradient ell Hok lat lon deg) as (k & K & G). fold n in G.
  pose proof (L_ecef.unit_normal_unit (as_rad deg lat) (as_rad deg lon)) as U. fold n in U.
  pose proof (qf_pos (ell_a ell) (ell_b ell) n ltac:(lra) Hb U) as Qn.
  assert (B : qf (ell_a ell) (ell_b ell) (geodetic2ecef lat lon 0 ell deg) n = k).
  { transitivity (vdot (gradient (ell_a ell) (ell_b ell) (geodetic2ecef lat lon 0 ell deg)) n).
    - destruct (geodetic2ecef lat lon 0 ell deg) as [[x y] z], n as [[u v] w]. unfold qf, gradient, vdot. unfold Rdiv. ring.
    - rewrite G. destruct n as [[u v] w]. unfold vdot, vscale in *. transitivity (k * (u * u + v * v + w * w)); [ring|rewrite U; ring]. }
  rewrite B. split; [|intros]; nra.
Qed.
