(** Proofs about geodetic2ecef and ecef2geodetic. *)
From Coq Require Import Lia Psatz.
From Verif Require Import PyMath L_PyMath M_ellipsoid M_ecef Spec L_ell.
Open Scope R_scope.

Section WithEll.
Variable ell : option Ellipsoid.
Hypothesis Hok : ell_ok ell.
Let a := ell_a ell.
Let b := ell_b ell.
Let Hb : 0 < b. Proof. apply ell_pos, Hok. Qed.
Let Ha : b <= a. Proof. apply ell_pos, Hok. Qed.
Let Ha0 : 0 < a. Proof. pose proof Hb; pose proof Ha; lra. Qed.

(** geodetic2ecef in terms of the spec's a and b. *)
Lemma g2e_unfold lat lon h deg :
  geodetic2ecef lat lon h ell deg =
  (let p := as_rad deg lat in let l := as_rad deg lon in
   let w := hypot (a * cos p) (b * sin p) in
   ((a ^ 2 / w + h) * cos p * cos l,
    (a ^ 2 / w + h) * cos p * sin l,
    (b ^ 2 / w + h) * sin p)).
Proof.
  unfold geodetic2ecef. cbv zeta. rewrite resolve_a, resolve_b, (as_rad_rad_in deg lat), (as_rad_rad_in deg lon).
  fold a b. cbv zeta. f_equal. f_equal. f_equal.
  pose proof (acbs_pos a b (rad_in deg lat) Hb Ha) as Hw. field. split; lra.
Qed.

Lemma g2e_surface lat lon deg :
  on_ellipsoid a b (geodetic2ecef lat lon 0 ell deg).
Proof.
  rewrite g2e_unfold. cbv zeta. unfold on_ellipsoid.
  set (p := as_rad deg lat). set (l := as_rad deg lon).
  pose proof (acbs_pos a b p Hb Ha) as Hw.
  pose proof (hypot_pow2 (a * cos p) (b * sin p)) as Hw2.
  set (w := hypot (a * cos p) (b * sin p)) in *.
  transitivity (((a * cos p)^2 * (sin l * sin l + cos l * cos l) + (b * sin p)^2) / w ^ 2).
  - field. repeat split; lra.
  - rewrite sc1, Rmult_1_r, <- Hw2. field. lra.
Qed.

Lemma g2e_normal lat lon h deg :
  geodetic2ecef lat lon h ell deg =
  vadd (geodetic2ecef lat lon 0 ell deg)
       (vscale h (unit_normal (as_rad deg lat) (as_rad deg lon))).
Proof.
  rewrite !g2e_unfold. cbv zeta. unfold vadd, vscale, unit_normal.
  f_equal; [f_equal|]; ring.
Qed.

Lemma unit_normal_unit p l : vdot (unit_normal p l) (unit_normal p l) = 1.
Proof. unfold vdot, unit_normal. tring2 p l. Qed.

Lemma g2e_gradient lat lon deg :
  exists k, 0 < k /\ gradient a b (geodetic2ecef lat lon 0 ell deg)
   = vscale k (unit_normal (as_rad deg lat) (as_rad deg lon)).
Proof.
  rewrite g2e_unfold. cbv zeta. set (p := as_rad deg lat). set (l := as_rad deg lon).
  pose proof (acbs_pos a b p Hb Ha) as Hw.
  set (w := hypot (a * cos p) (b * sin p)) in *.
  exists (/ w). split; [now apply Rinv_0_lt_compat|].
  unfold gradient, vscale, unit_normal. f_equal; [f_equal|]; field; repeat split; lra.
Qed.

End WithEll.

(** ** Convexity and injectivity (C02) *)
Lemma vdot_comm p q : vdot p q = vdot q p.
Proof. destruct p as [[? ?] ?], q as [[? ?] ?]. unfold vdot. ring. Qed.

(** Support inequality of the ellipsoid. *)
Lemma ellipsoid_support a b p q : 0 < a -> 0 < b ->
  on_ellipsoid a b p -> on_ellipsoid a b q ->
  vdot (vsub q p) (gradient a b p) <= 0.
Proof.
  destruct p as [[x y] z], q as [[x' y'] z']. unfold on_ellipsoid, vdot, vsub, gradient.
  intros Ha Hb H1 H2.
  assert (E : forall u v, u * (v / a^2) = (u / a) * (v / a)) by (intros; field; lra).
  assert (E' : forall u v, u * (v / b^2) = (u / b) * (v / b)) by (intros; field; lra).
  rewrite !E, E'.
  replace (x ^ 2 / a ^ 2) with ((x / a) * (x / a)) in H1 by (field; lra).
  replace (y ^ 2 / a ^ 2) with ((y / a) * (y / a)) in H1 by (field; lra).
  replace (z ^ 2 / b ^ 2) with ((z / b) * (z / b)) in H1 by (field; lra).
  replace (x' ^ 2 / a ^ 2) with ((x' / a) * (x' / a)) in H2 by (field; lra).
  replace (y' ^ 2 / a ^ 2) with ((y' / a) * (y' / a)) in H2 by (field; lra).
  replace (z' ^ 2 / b ^ 2) with ((z' / b) * (z' / b)) in H2 by (field; lra).
  replace ((x' - x) / a) with (x' / a - x / a) by (field; lra).
  replace ((y' - y) / a) with (y' / a - y / a) by (field; lra).
  replace ((z' - z) / b) with (z' / b - z / b) by (field; lra).
  set (X := x / a) in *. set (Y := y / a) in *. set (Z := z / b) in *.
  set (X' := x' / a) in *. set (Y' := y' / a) in *. set (Z' := z' / b) in *.
  pose proof (sq_nonneg (X - X')). pose proof (sq_nonneg (Y - Y')).
  pose proof (sq_nonneg (Z - Z')). nra.
Qed.

Lemma unit_dot_le1 p q : vdot p p = 1 -> vdot q q = 1 -> vdot p q <= 1.
Proof.
  destruct p as [[x y] z], q as [[x' y'] z']. unfold vdot. intros.
  pose proof (sq_nonneg (x - x')). pose proof (sq_nonneg (y - y')).
  pose proof (sq_nonneg (z - z')). nra.
Qed.
Lemma unit_dot_eq1 p q : vdot p p = 1 -> vdot q q = 1 -> vdot p q = 1 -> p = q.
Proof.
  destruct p as [[x y] z], q as [[x' y'] z']. unfold vdot. intros.
  pose proof (sq_nonneg (x - x')). pose proof (sq_nonneg (y - y')).
  pose proof (sq_nonneg (z - z')).
  assert ((x - x')^2 = 0) by nra. assert ((y - y')^2 = 0) by nra.
  assert ((z - z')^2 = 0) by nra.
  assert (x = x') by (simpl in *; nra). assert (y = y') by (simpl in *; nra).
  assert (z = z') by (simpl in *; nra). now subst.
Qed.

Lemma offset_injective a b p1 p2 n1 n2 k1 k2 h1 h2 :
  0 < a -> 0 < b ->
  on_ellipsoid a b p1 -> on_ellipsoid a b p2 ->
  0 < k1 -> gradient a b p1 = vscale k1 n1 ->
  0 < k2 -> gradient a b p2 = vscale k2 n2 ->
  vdot n1 n1 = 1 -> vdot n2 n2 = 1 ->
  0 <= h1 -> 0 <= h2 ->
  vadd p1 (vscale h1 n1) = vadd p2 (vscale h2 n2) ->
  h1 = h2 /\ n1 = n2.
Proof.
  intros Ha Hb S1 S2 K1 G1 K2 G2 U1 U2 P1 P2 E.
  pose proof (ellipsoid_support a b p1 p2 Ha Hb S1 S2) as C1. rewrite G1 in C1.
  pose proof (ellipsoid_support a b p2 p1 Ha Hb S2 S1) as C2. rewrite G2 in C2.
  assert (D1 : vdot (vsub p2 p1) n1 <= 0).
  { replace (vdot (vsub p2 p1) (vscale k1 n1)) with (k1 * vdot (vsub p2 p1) n1) in C1
      by (destruct (vsub p2 p1) as [[? ?] ?], n1 as [[? ?] ?]; unfold vdot, vscale; ring).
    nra. }
  assert (D2 : vdot (vsub p1 p2) n2 <= 0).
  { replace (vdot (vsub p1 p2) (vscale k2 n2)) with (k2 * vdot (vsub p1 p2) n2) in C2
      by (destruct (vsub p1 p2) as [[? ?] ?], n2 as [[? ?] ?]; unfold vdot, vscale; ring).
    nra. }
  assert (F1 : vdot (vsub p2 p1) n1 = h1 - h2 * vdot n1 n2).
  { destruct p1 as [[? ?] ?], p2 as [[? ?] ?], n1 as [[? ?] ?], n2 as [[? ?] ?].
    unfold vdot, vsub, vadd, vscale in *. injection E as E1 E2 E3.
    rewrite <- (Rmult_1_r h1), <- U1. nra. }
  assert (F2 : vdot (vsub p1 p2) n2 = h2 - h1 * vdot n1 n2).
  { destruct p1 as [[? ?] ?], p2 as [[? ?] ?], n1 as [[? ?] ?], n2 as [[? ?] ?].
    unfold vdot, vsub, vadd, vscale in *. injection E as E1 E2 E3.
    rewrite <- (Rmult_1_r h2), <- U2. nra. }
  pose proof (unit_dot_le1 n1 n2 U1 U2) as C.
  set (c := vdot n1 n2) in *.
  assert (h1 = h2) by nra. subst h2. split; [reflexivity|].
  destruct (Req_dec h1 0) as [H0|H0].
  - subst h1. assert (p1 = p2).
    { destruct p1 as [[? ?] ?], p2 as [[? ?] ?], n1 as [[? ?] ?], n2 as [[? ?] ?].
      unfold vadd, vscale in E. injection E as E1 E2 E3. f_equal; [f_equal|]; lra. }
    subst p2. rewrite G1 in G2.
    assert (k1 = k2).
    { assert (Q : k1 * k1 = k2 * k2).
      { transitivity (vdot (vscale k1 n1) (vscale k1 n1)).
        - transitivity (k1 * k1 * vdot n1 n1); [rewrite U1; ring|].
          destruct n1 as [[? ?] ?]; unfold vdot, vscale; ring.
        - rewrite G2. transitivity (k2 * k2 * vdot n2 n2); [|rewrite U2; ring].
          destruct n2 as [[? ?] ?]; unfold vdot, vscale; ring. }
      nra. }
    subst k2. destruct n1 as [[? ?] ?], n2 as [[? ?] ?]. unfold vscale in G2.
    injection G2 as G3 G4 G5.
    f_equal; [f_equal|]; apply Rmult_eq_reg_l with k1; lra.
  - apply unit_dot_eq1; [assumption|assumption|]. fold c. nra.
Qed.

Lemma g2e_injective ell lat1 lon1 h1 lat2 lon2 h2 deg :
  ell_ok ell -> 0 <= h1 -> 0 <= h2 ->
  geodetic2ecef lat1 lon1 h1 ell deg = geodetic2ecef lat2 lon2 h2 ell deg ->
  h1 = h2 /\
  unit_normal (as_rad deg lat1) (as_rad deg lon1)
  = unit_normal (as_rad deg lat2) (as_rad deg lon2).
Proof.
  intros Hok H1 H2 E. destruct (ell_pos ell Hok) as [Hb Ha].
  rewrite (g2e_normal ell Hok lat1), (g2e_normal ell Hok lat2) in E.
  destruct (g2e_gradient ell Hok lat1 lon1 deg) as (k1 & K1 & G1).
  destruct (g2e_gradient ell Hok lat2 lon2 deg) as (k2 & K2 & G2).
  apply (offset_injective (ell_a ell) (ell_b ell) _ _ _ _ k1 k2 h1 h2 ltac:(lra) Hb
    (g2e_surface ell Hok lat1 lon1 deg) (g2e_surface ell Hok lat2 lon2 deg)
    K1 G1 K2 G2 (unit_normal_unit _ _) (unit_normal_unit _ _) H1 H2 E).
Qed.

Lemma unit_normal_inj p1 l1 p2 l2 :
  - PI/2 < p1 < PI/2 -> - PI/2 < p2 < PI/2 -> - PI < l1 <= PI -> - PI < l2 <= PI ->
  unit_normal p1 l1 = unit_normal p2 l2 -> p1 = p2 /\ l1 = l2.
Proof.
  intros P1 P2 L1 L2 E. unfold unit_normal in E. injection E as E1 E2 E3.
  assert (C1 : 0 < cos p1) by (apply cos_gt_0; lra).
  assert (C2 : 0 < cos p2) by (apply cos_gt_0; lra).
  assert (C : cos p1 = cos p2).
  { pose proof (sc1 p1). pose proof (sc1 p2). rewrite E3 in *.
    assert (cos p1 * cos p1 = cos p2 * cos p2) by lra. nra. }
  split; apply angle_unique; try lra; apply Rmult_eq_reg_l with (cos p1); try lra;
    rewrite C at 2; lra.
Qed.

Lemma quarter_rad deg x : - quarter deg < x < quarter deg -> - PI/2 < as_rad deg x < PI/2.
Proof. destruct deg; unfold quarter, as_rad; pose proof PI_RGT_0; [|lra]. intros; split; nra. Qed.
Lemma half_rad deg x : - half deg < x <= half deg -> - PI < as_rad deg x <= PI.
Proof. destruct deg; unfold half, as_rad; pose proof PI_RGT_0; [|lra]. intros; split; nra. Qed.
Lemma as_rad_inj deg x y : as_rad deg x = as_rad deg y -> x = y.
Proof.
  destruct deg; unfold as_rad; [|trivial]. pose proof PI_RGT_0. intros.
  apply Rmult_eq_reg_r with (PI / 180); lra.
Qed.

Lemma g2e_injective_latlon ell lat1 lon1 h1 lat2 lon2 h2 deg :
  ell_ok ell -> 0 <= h1 -> 0 <= h2 ->
  - quarter deg < lat1 < quarter deg -> - quarter deg < lat2 < quarter deg ->
  - half deg < lon1 <= half deg -> - half deg < lon2 <= half deg ->
  geodetic2ecef lat1 lon1 h1 ell deg = geodetic2ecef lat2 lon2 h2 ell deg ->
  lat1 = lat2 /\ lon1 = lon2 /\ h1 = h2.
Proof.
  intros Hok H1 H2 Q1 Q2 L1 L2 E.
  destruct (g2e_injective _ _ _ _ _ _ _ _ Hok H1 H2 E) as [Hh Hn].
  apply quarter_rad in Q1, Q2. apply half_rad in L1, L2.
  destruct (unit_normal_inj _ _ _ _ Q1 Q2 L1 L2 Hn) as [Hp Hl].
  apply as_rad_inj in Hp, Hl. tauto.
Qed.
