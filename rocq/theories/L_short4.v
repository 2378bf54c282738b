(** Rate of change of the length of the geodesic from a fixed point, as its end moves on
    the surface. *)
From Coq Require Import Reals Ratan Ranalysis5 Lra Lia Psatz.
From Coquelicot Require Import Coquelicot.
From Verif Require Import PyMath Spec L_PyMath L_short1 L_short2 L_short3.
From Verif Require L_vincenty2.
Open Scope R_scope.

(** Gram identity on the unit sphere. *)
Lemma gram_rate x1 y1 z1 X Y Z vx vy vz c s g e2 : x1 ^ 2 + y1 ^ 2 + z1 ^ 2 = 1 -> X ^ 2 + Y ^ 2 + Z ^ 2 = 1 ->
  c = x1 * X + y1 * Y + z1 * Z -> s * s = 1 - c * c -> 2 * g - g ^ 2 * (1 - Z ^ 2) = e2 ->
  let b := vx * X + vy * Y + vz * Z in let al := vx * x1 + vy * y1 + vz * z1 in
  s <> 0 ->
  ((c * b - al) / s - g * ((c * Z - z1) / s) * vz) ^ 2 <= (vx ^ 2 + vy ^ 2 + vz ^ 2) - e2 * vz ^ 2 - b ^ 2 + 2 * g * vz * Z * b.
Proof.
  intros H1 H2 Hc Hs Hg b al Hn.
  set (dv := x1 * (Y * vz - Z * vy) + y1 * (Z * vx - X * vz) + z1 * (X * vy - Y * vx)). set (dz := x1 * Y - y1 * X).
  assert (E1 : dv ^ 2 = (vx ^ 2 + vy ^ 2 + vz ^ 2) * (s * s) - al ^ 2 - b ^ 2 + 2 * c * al * b).
  { rewrite Hs. assert (K : dv ^ 2 = (x1 ^ 2 + y1 ^ 2 + z1 ^ 2) * (X ^ 2 + Y ^ 2 + Z ^ 2) * (vx ^ 2 + vy ^ 2 + vz ^ 2) + 2 * c * al * b - (X ^ 2 + Y ^ 2 + Z ^ 2) * al ^ 2 - (x1 ^ 2 + y1 ^ 2 + z1 ^ 2) * b ^ 2 - (vx ^ 2 + vy ^ 2 + vz ^ 2) * c ^ 2) by (unfold dv, al, b; rewrite Hc; ring). rewrite K, H1, H2. ring. }
  assert (E2 : dv * dz = vz * (s * s) - al * z1 - b * Z + c * (al * Z + b * z1)).
  { rewrite Hs. assert (K : dv * dz = (x1 ^ 2 + y1 ^ 2 + z1 ^ 2) * (X ^ 2 + Y ^ 2 + Z ^ 2) * vz + c * (al * Z + b * z1) - (X ^ 2 + Y ^ 2 + Z ^ 2) * al * z1 - (x1 ^ 2 + y1 ^ 2 + z1 ^ 2) * b * Z - vz * c ^ 2) by (unfold dv, dz, al, b; rewrite Hc; ring). rewrite K, H1, H2. ring. }
  assert (E3 : dz ^ 2 = s * s - z1 ^ 2 - Z ^ 2 + 2 * c * z1 * Z).
  { rewrite Hs. assert (K : dz ^ 2 = (x1 ^ 2 + y1 ^ 2 + z1 ^ 2) * (X ^ 2 + Y ^ 2 + Z ^ 2) - (X ^ 2 + Y ^ 2 + Z ^ 2) * z1 ^ 2 - (x1 ^ 2 + y1 ^ 2 + z1 ^ 2) * Z ^ 2 + 2 * c * z1 * Z - c ^ 2) by (unfold dz; rewrite Hc; ring). rewrite K, H1, H2. ring. }
  assert (P : 0 < s * s) by nra. set (m := (c * b - al) / s - g * ((c * Z - z1) / s) * vz).
  assert (Em : m * s = (c * b - al) - g * (c * Z - z1) * vz) by (unfold m; field; exact Hn).
  apply Rmult_le_reg_r with (s * s); [exact P|]. replace (m ^ 2 * (s * s)) with ((m * s) ^ 2) by ring. rewrite Em.
  pose proof (pow2_ge_0 (dv - g * dz * vz)) as Q. replace ((dv - g * dz * vz) ^ 2) with (dv ^ 2 - 2 * g * vz * (dv * dz) + g ^ 2 * vz ^ 2 * dz ^ 2) in Q by ring. rewrite E1, E2, E3 in Q. rewrite <- Hg. set (v2 := vx ^ 2 + vy ^ 2 + vz ^ 2) in *. clearbody v2 b al dv dz m. rewrite Hs in Q |- *. nra.
Qed.
Section Rate.
Variables (e2 x1 y1 z1 : R).
Hypothesis He : 0 <= e2 <= 2 / 100.
Hypothesis P1 : x1 ^ 2 + y1 ^ 2 + z1 ^ 2 = 1.
Notation cq := (cq x1 y1 z1). Notation sq := (sq x1 y1 z1). Notation pq := (pq x1 y1 z1). Notation dq := (dq x1 y1 z1).
Notation Sq := (Sq e2 x1 y1 z1). Notation Kq := (Kq e2 x1 y1 z1). Notation reach := (reach e2 x1 y1 z1). Notation inside := (inside x1 y1 z1).
Variables (x0 y0 z0 th0 : R).
Hypothesis I0 : inside x0 y0 z0.
Hypothesis R0 : reach x0 y0 z0 th0.
(** the points of the surface with their auxiliary longitude *)
Record pt : Type := { px : R; py : R; pz : R; pt_th : R; pt_on : onS px py pz; pt_re : reach px py pz pt_th }.
Definition N (u : pt) : R := Rabs (px u - x0) + Rabs (py u - y0) + Rabs (pz u - z0).
Lemma N0 u : 0 <= N u.
Proof. unfold N. pose proof (Rabs_pos (px u - x0)). pose proof (Rabs_pos (py u - y0)). pose proof (Rabs_pos (pz u - z0)). lra. Qed.
Notation near := (near N). Notation small := (small N). Notation big := (big N). Notation lin := (lin N).
Lemma bx : big (fun u => px u - x0). Proof. exists 1. split; [lra|]. apply near_all. intros u. unfold N. pose proof (Rabs_pos (py u - y0)). pose proof (Rabs_pos (pz u - z0)). lra. Qed.
Lemma by_ : big (fun u => py u - y0). Proof. exists 1. split; [lra|]. apply near_all. intros u. unfold N. pose proof (Rabs_pos (px u - x0)). pose proof (Rabs_pos (pz u - z0)). lra. Qed.
Lemma bz : big (fun u => pz u - z0). Proof. exists 1. split; [lra|]. apply near_all. intros u. unfold N. pose proof (Rabs_pos (py u - y0)). pose proof (Rabs_pos (px u - x0)). lra. Qed.
Lemma lx : lin px x0 (fun u => px u - x0). Proof. apply (lin_exact N N0), bx. Qed.
Lemma ly : lin py y0 (fun u => py u - y0). Proof. apply (lin_exact N N0), by_. Qed.
Lemma lz : lin pz z0 (fun u => pz u - z0). Proof. apply (lin_exact N N0), bz. Qed.
Lemma H0 : onS x0 y0 z0. Proof. apply I0. Qed.
Lemma M0 : mid x1 y1 z1 x0 y0 z0. Proof. destruct I0. split; [assumption|lra]. Qed.
Lemma C0 : -1 < cq x0 y0 z0 < 1. Proof. apply (mid_facts x1 y1 z1 P1 _ _ _ M0). Qed.
Lemma near_sq r : 0 < r -> near (fun u => Rabs (sq (px u) (py u) (pz u) - sq x0 y0 z0) < r).
Proof. intros Hr. apply (big_near N N0); [|exact Hr]. apply (lin_big N (fun u => sq (px u) (py u) (pz u)) _ _ (lin_s N N0 x1 y1 z1 px py pz x0 y0 z0 _ _ _ lx ly lz C0)). Qed.
Lemma near_inside : near (fun u => inside (px u) (py u) (pz u)).
Proof.
  destruct I0 as [_ B]. assert (R : 0 < Rmin (sq x0 y0 z0) (285 / 100 - sq x0 y0 z0)) by (apply Rmin_glb_lt; lra). generalize (near_sq _ R). apply near_imp. intros u H. split; [apply pt_on|]. pose proof (Rmin_l (sq x0 y0 z0) (285 / 100 - sq x0 y0 z0)). pose proof (Rmin_r (sq x0 y0 z0) (285 / 100 - sq x0 y0 z0)). apply Rabs_def2 in H. lra.
Qed.
Lemma near_th0 : near (fun u => Rabs th0 <= sq (px u) (py u) (pz u) / 40).
Proof.
  destruct I0 as [_ B]. destruct R0 as [A _]. assert (R : 0 < sq x0 y0 z0 / 5) by lra. generalize (near_sq _ R). apply near_imp. intros u H. apply Rabs_def2 in H. lra.
Qed.
(** the point turned by the fixed angle *)
Notation X0 := (rX x0 y0 th0). Notation Y0 := (rY x0 y0 th0).
Lemma M1 : mid x1 y1 z1 X0 Y0 z0.
Proof. apply (inside_mid x1 y1 z1 P1 _ _ _ _ I0). destruct R0 as [A _]. destruct I0 as [_ B]. lra. Qed.
Lemma C1 : -1 < cq X0 Y0 z0 < 1. Proof. apply (mid_facts x1 y1 z1 P1 _ _ _ M1). Qed.
Lemma H1 : onS X0 Y0 z0. Proof. apply M1. Qed.
Lemma big_K : big (fun u => Kq (rX (px u) (py u) th0) (rY (px u) (py u) th0) (pz u) - Kq X0 Y0 z0).
Proof.
  assert (LX : lin (fun u => rX (px u) (py u) th0) X0 (fun u => cos th0 * (px u - x0) + - sin th0 * (py u - y0))).
  { generalize (lin_add N _ _ _ _ _ _ (lin_scal N N0 (cos th0) _ _ _ lx) (lin_scal N N0 (- sin th0) _ _ _ ly)). apply (lin_ext N); [apply near_all; intros; unfold rX; ring|unfold rX; ring|reflexivity]. }
  assert (LY : lin (fun u => rY (px u) (py u) th0) Y0 (fun u => sin th0 * (px u - x0) + cos th0 * (py u - y0))).
  { generalize (lin_add N _ _ _ _ _ _ (lin_scal N N0 (sin th0) _ _ _ lx) (lin_scal N N0 (cos th0) _ _ _ ly)). apply (lin_ext N); [apply near_all; intros; unfold rY; ring|unfold rY; ring|reflexivity]. }
  exact (lin_big N _ _ _ (lin_K N N0 e2 x1 y1 z1 He P1 _ _ _ X0 Y0 z0 _ _ _ LX LY lz H1 C1)).
Qed.
Lemma big_th : big (fun u => pt_th u - th0).
Proof.
  destruct big_K as (C & HC & HK). exists (4 * C). split; [lra|]. generalize (near_and N _ _ (near_and N _ _ near_inside near_th0) HK). apply near_imp. intros u [[HI HT] K].
  destruct (pt_re u) as [A E]. destruct R0 as [A0 E0]. pose proof HI as [_ B]. pose proof (K_lip e2 x1 y1 z1 He P1 (px u) (py u) (pz u) th0 (pt_th u) HI HT ltac:(lra)) as L. rewrite <- E in L. rewrite <- E0 in K.
  set (k := Kq (rX (px u) (py u) th0) (rY (px u) (py u) th0) (pz u)) in *. pose proof (Rabs_triang (pt_th u - k) (k - th0)) as T. replace (pt_th u - k + (k - th0)) with (pt_th u - th0) in T by ring. lra.
Qed.
Lemma lth : lin pt_th th0 (fun u => pt_th u - th0). Proof. apply (lin_exact N N0), big_th. Qed.
Definition Vx (u : pt) : R := cos th0 * (px u - x0) - sin th0 * (py u - y0).
Definition Vy (u : pt) : R := sin th0 * (px u - x0) + cos th0 * (py u - y0).
Definition Vz (u : pt) : R := pz u - z0.
Lemma lsin : lin (fun u => sin (pt_th u)) (sin th0) (fun u => cos th0 * (pt_th u - th0)).
Proof. apply (lin_comp1 N N0 sin (cos th0) pt_th); [apply is_derive_Reals, derivable_pt_lim_sin|apply lth]. Qed.
Lemma lcos : lin (fun u => cos (pt_th u)) (cos th0) (fun u => - sin th0 * (pt_th u - th0)).
Proof. apply (lin_comp1 N N0 cos (- sin th0) pt_th); [apply is_derive_Reals, derivable_pt_lim_cos|apply lth]. Qed.
Lemma lX : lin (fun u => rX (px u) (py u) (pt_th u)) X0 (fun u => Vx u - Y0 * (pt_th u - th0)).
Proof.
  generalize (lin_add N _ _ _ _ _ _ (lin_mul N N0 _ _ _ _ _ _ lx lcos) (lin_scal N N0 (-1) _ _ _ (lin_mul N N0 _ _ _ _ _ _ ly lsin))). apply (lin_ext N).
  - apply near_all. intros u. unfold rX. ring.
  - unfold rX. ring.
  - intros u. unfold Vx, rY. ring.
Qed.
Lemma lY : lin (fun u => rY (px u) (py u) (pt_th u)) Y0 (fun u => Vy u + X0 * (pt_th u - th0)).
Proof.
  generalize (lin_add N _ _ _ _ _ _ (lin_mul N N0 _ _ _ _ _ _ lx lsin) (lin_mul N N0 _ _ _ _ _ _ ly lcos)). apply (lin_ext N).
  - apply near_all. intros u. unfold rY. ring.
  - unfold rY. ring.
  - intros u. unfold Vy, rX. ring.
Qed.
(** the length of the geodesic to the point *)
Definition Tq (x y z th : R) : R := Sq (rX x y th) (rY x y th) z.
Lemma lT : lin (fun u => Tq (px u) (py u) (pz u) (pt_th u)) (Tq x0 y0 z0 th0)
  (fun u => - (x1 * Vx u + y1 * Vy u + z1 * Vz u) / sin (sq X0 Y0 z0) - gg e2 z0 * Dz x1 y1 z1 X0 Y0 z0 * Vz u).
Proof.
  assert (OU : forall u, onS (rX (px u) (py u) (pt_th u)) (rY (px u) (py u) (pt_th u)) (pz u)) by (intros u; apply rot_onS, pt_on).
  pose proof (lin_SK N N0 e2 x1 y1 z1 He P1 _ _ _ X0 Y0 z0 _ _ _ lX lY lz OU H1 C1) as L.
  generalize (lin_add N _ _ _ _ _ _ L (lin_scal N N0 (- pq X0 Y0 z0) _ _ _ lth)). apply (lin_ext N).
  - apply near_all. intros u. cbv beta. destruct (pt_re u) as [_ E]. unfold Tq. rewrite <- E. ring.
  - destruct R0 as [_ E]. unfold Tq. rewrite <- E. ring.
  - intros u. destruct (mid_facts x1 y1 z1 P1 _ _ _ M1) as (_ & S & _). unfold ls, lc, L_short2.pq, Vz. field. lra.
Qed.
Lemma V_sq u : Vx u ^ 2 + Vy u ^ 2 + Vz u ^ 2 = (px u - x0) ^ 2 + (py u - y0) ^ 2 + (pz u - z0) ^ 2.
Proof. unfold Vx, Vy, Vz. pose proof (sc1 th0) as S. replace ((cos th0 * (px u - x0) - sin th0 * (py u - y0)) ^ 2 + (sin th0 * (px u - x0) + cos th0 * (py u - y0)) ^ 2) with ((sin th0 * sin th0 + cos th0 * cos th0) * ((px u - x0) ^ 2 + (py u - y0) ^ 2)) by ring. rewrite S. ring. Qed.
Lemma V_Q u : Vx u * X0 + Vy u * Y0 + Vz u * z0 = - ((px u - x0) ^ 2 + (py u - y0) ^ 2 + (pz u - z0) ^ 2) / 2.
Proof.
  unfold Vx, Vy, Vz, rX, rY. pose proof (sc1 th0) as S. pose proof (pt_on u) as A. pose proof H0 as B. unfold onS in A, B.
  transitivity ((sin th0 * sin th0 + cos th0 * cos th0) * (x0 * (px u - x0) + y0 * (py u - y0)) + z0 * (pz u - z0)); [ring|]. rewrite S. nra.
Qed.
Definition W (x y z : R) : R := sqrt ((x - x0) ^ 2 + (y - y0) ^ 2 + (1 - e2) * (z - z0) ^ 2).
Theorem rate eps : 0 < eps -> exists del, 0 < del /\ forall x y z th, onS x y z -> reach x y z th ->
  Rabs (x - x0) + Rabs (y - y0) + Rabs (z - z0) < del -> Rabs (Tq x y z th - Tq x0 y0 z0 th0) <= (1 + eps) * W x y z.
Proof.
  intros He0. destruct (mid_facts x1 y1 z1 P1 _ _ _ M1) as (C & S & _ & _ & CA & _). set (s := sin (sq X0 Y0 z0)) in *. set (c := cq X0 Y0 z0) in *.
  assert (IS : 0 < / s) by (apply Rinv_0_lt_compat; lra).
  destruct lT as [_ Sm]. destruct (Sm (eps / 8) ltac:(lra)) as (del & Hd & Hs). cbv beta in Hs. set (d2 := Rmin 1 (eps / (8 * (1 + / s)))).
  assert (D2 : 0 < d2) by (apply Rmin_glb_lt; [lra|]; apply Rdiv_lt_0_compat; lra).
  exists (Rmin del d2). split; [now apply Rmin_glb_lt|]. intros x y z th HO HR HN. set (u := {| px := x; py := y; pz := z; pt_th := th; pt_on := HO; pt_re := HR |}).
  assert (NU : N u < del /\ N u < d2). { unfold N, u. cbn. pose proof (Rmin_l del d2). pose proof (Rmin_r del d2). lra. } destruct NU as [NU1 NU2].
  specialize (Hs u NU1). cbn [px py pz pt_th u] in Hs. set (dT := Tq x y z th - Tq x0 y0 z0 th0) in *.
  pose proof (V_sq u) as VS. pose proof (V_Q u) as VQ. fold s in Hs.
  set (vx := Vx u) in *. set (vy := Vy u) in *. set (vz := Vz u) in *. cbn [px py pz u] in VS, VQ. set (q := (x - x0) ^ 2 + (y - y0) ^ 2 + (z - z0) ^ 2) in *.
  assert (VZ : vz = z - z0) by reflexivity. set (n := N u) in *. assert (n0 : 0 <= n) by apply N0.
  assert (Q0 : 0 <= q) by (unfold q; pose proof (pow2_ge_0 (x - x0)); pose proof (pow2_ge_0 (y - y0)); pose proof (pow2_ge_0 (z - z0)); lra).
  assert (QN : q <= n ^ 2 /\ n ^ 2 <= 3 * q /\ Rabs vz <= n).
  { unfold q, n, N, u. cbn [px py pz]. rewrite <- (pow2_abs (x - x0)), <- (pow2_abs (y - y0)), <- (pow2_abs (z - z0)). rewrite VZ. set (p1 := Rabs (x - x0)). set (p2 := Rabs (y - y0)). set (p3 := Rabs (z - z0)). assert (0 <= p1) by apply Rabs_pos. assert (0 <= p2) by apply Rabs_pos. assert (0 <= p3) by apply Rabs_pos.
    pose proof (pow2_ge_0 (p1 - p2)). pose proof (pow2_ge_0 (p1 - p3)). pose proof (pow2_ge_0 (p2 - p3)). pose proof (Rmult_le_pos p1 p2). pose proof (Rmult_le_pos p1 p3). pose proof (Rmult_le_pos p2 p3). split; [|split]; [nra|nra|lra]. }
  destruct QN as (QN1 & QN2 & VZN).
  set (w := W x y z). assert (W2 : w ^ 2 = q - e2 * vz ^ 2). { unfold w, W. rewrite pow2_sqrt; [unfold q; rewrite VZ; ring|]. pose proof (pow2_ge_0 (x - x0)); pose proof (pow2_ge_0 (y - y0)); pose proof (pow2_ge_0 (z - z0)). pose proof (Rmult_le_pos (1 - e2) ((z - z0) ^ 2)). lra. }
  assert (w0 : 0 <= w) by apply sqrt_pos.
  assert (VZ2 : 0 <= vz ^ 2 <= q). { rewrite VZ. unfold q. pose proof (pow2_ge_0 (x - x0)); pose proof (pow2_ge_0 (y - y0)); pose proof (pow2_ge_0 (z - z0)). lra. }
  assert (WQ : 98 / 100 * q <= w ^ 2) by (rewrite W2; nra). assert (NW : n <= 2 * w) by nra.
  assert (SS : s * s = 1 - c * c) by (pose proof (sc1 (sq X0 Y0 z0)) as S'; rewrite CA in S'; unfold s; fold c in S'; lra).
  assert (H1' : X0 ^ 2 + Y0 ^ 2 + z0 ^ 2 = 1) by exact H1.
  pose proof (gram_rate x1 y1 z1 X0 Y0 z0 vx vy vz c s (gg e2 z0) e2 P1 H1' eq_refl SS (gg_sq e2 He z0) ltac:(lra)) as G. rewrite VQ, VS in G.
  assert (DZ : Dz x1 y1 z1 X0 Y0 z0 = (c * z0 - z1) / s). { unfold Dz. fold s c. unfold L_short2.dq. fold s c. apply Rmult_eq_reg_r with s; [|lra]. replace ((c * z0 - z1) / s * s) with (c * z0 - z1) by (field; lra). replace ((- s * z1 + c * ((z0 - c * z1) * / s)) * s) with (- (s * s) * z1 + c * (z0 - c * z1)) by (field; lra). rewrite SS. ring. }
  rewrite DZ in Hs. set (g := gg e2 z0) in *. pose proof (gg_bound e2 He z0) as GB. fold g in GB. set (k := (c * z0 - z1) / s) in *.
  set (m := (c * (- q / 2) - (vx * x1 + vy * y1 + vz * z1)) / s - g * k * vz) in *.
  replace (- (x1 * vx + y1 * vy + z1 * vz) / s - g * k * vz) with (m + c * (q / 2) * / s) in Hs by (unfold m; field; lra).
  assert (z0b : Rabs z0 <= 1). { rewrite <- (pow2_abs z0) in H1'. pose proof (pow2_ge_0 X0). pose proof (pow2_ge_0 Y0). pose proof (Rabs_pos z0). nra. }
  assert (n1 : n <= 1) by (unfold d2 in NU2; pose proof (Rmin_l 1 (eps / (8 * (1 + / s)))); lra).
  assert (ne : (1 + / s) * n <= eps / 8). { assert (n <= eps / (8 * (1 + / s))) by (unfold d2 in NU2; pose proof (Rmin_r 1 (eps / (8 * (1 + / s)))); lra). apply Rle_trans with ((1 + / s) * (eps / (8 * (1 + / s)))); [apply Rmult_le_compat_l; lra|]. right. field. lra. }
  (* the main part *)
  assert (MM : Rabs m <= w * (1 + n)).
  { assert (B : Rabs (2 * g * vz * z0 * (- q / 2)) <= 2 * (102 / 10000) * n * 1 * (q / 2)).
    { assert (QA : Rabs (- q / 2) <= q / 2) by (apply Rabs_le; lra). set (hq := - q / 2) in *. clearbody hq g vz n q. clear - GB He VZN z0b QA. repeat apply L_vincenty2.Rabs_mul_le; try assumption; rewrite Rabs_right; lra. }
    apply Rabs_le_between in B. pose proof (pow2_ge_0 (- q / 2)). assert (A : m ^ 2 <= (w * (1 + n)) ^ 2).
    { apply Rle_trans with (w ^ 2 + 102 / 10000 * n * q); [rewrite W2; lra|]. pose proof (Rmult_le_pos n q n0 Q0). assert (n * w ^ 2 >= 98 / 100 * (n * q)) by (assert (n * (98 / 100 * q) <= n * w ^ 2) by (apply Rmult_le_compat_l; lra); lra). pose proof (pow2_ge_0 (w * n)). replace ((w * (1 + n)) ^ 2) with (w ^ 2 + 2 * (n * w ^ 2) + (w * n) ^ 2) by ring. lra. }
    assert (0 <= w * (1 + n)) by (apply Rmult_le_pos; lra). apply Rabs_le_between. apply Rabs_le_between. rewrite <- (Rabs_right (w * (1 + n))) by lra. apply Rsqr_le_abs_0. unfold Rsqr. lra. }
  assert (CQ : Rabs (c * (q / 2) * / s) <= n * n * / s). { assert (Rabs (c * (q / 2) * / s) <= 1 * (q / 2) * / s) by (apply L_vincenty2.Rabs_mul_le; [apply L_vincenty2.Rabs_mul_le; [apply Rabs_le; lra|rewrite Rabs_right; lra]|rewrite Rabs_right; lra]). assert (q / 2 * / s <= n * n * / s) by (apply Rmult_le_compat_r; nra). lra. }
  assert (FI : Rabs dT <= w * (1 + n) + n * n * / s + eps / 8 * n).
  { pose proof (Rabs_triang (dT - (m + c * (q / 2) * / s)) (m + c * (q / 2) * / s)) as T. replace (dT - (m + c * (q / 2) * / s) + (m + c * (q / 2) * / s)) with dT in T by ring. pose proof (Rabs_triang m (c * (q / 2) * / s)). lra. }
  assert (ni : 0 <= n * / s) by (apply Rmult_le_pos; lra). assert (n * / s <= eps / 8) by lra. assert (n * n * / s <= eps / 8 * n) by (replace (n * n * / s) with (n * / s * n) by ring; apply Rmult_le_compat_r; lra). assert (n <= eps / 8) by lra.
  assert (w * n <= w * (eps / 8)) by (apply Rmult_le_compat_l; lra). assert (eps * n <= eps * (2 * w)) by (apply Rmult_le_compat_l; lra). assert (0 <= eps * w) by (apply Rmult_le_pos; lra). lra.
Qed.
End Rate.
