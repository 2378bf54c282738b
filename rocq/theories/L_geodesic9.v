(** The equations of the Karney inverse solver describe true geodesics. *)
From Coq Require Import Reals Lra Lia Psatz.
From Coquelicot Require Import Coquelicot.
From Verif Require Import PyMath M_karney L_PyMath L_karney L_karney2 L_karney3 L_karney4 L_karney5 L_karney6 L_karney7 L_series1 L_series2 L_series3 Spec Spec_geodesic L_aer L_geodesic1 L_geodesic2 L_geodesic3 L_geodesic4 L_geodesic5 L_geodesic6 L_geodesic7 L_geodesic8.
Open Scope R_scope.

(** A pair with unit norm is a cosine and sine. *)
Lemma unit_polar s c : s ^ 2 + c ^ 2 = 1 -> sin (atan2 s c) = s /\ cos (atan2 s c) = c.
Proof.
  intros H. assert (Hh : hypot c s = 1) by (apply hypot_uniq; lra). pose proof (hypot_cos_atan2 s c) as A. pose proof (hypot_sin_atan2 s c) as B. rewrite Hh, Rmult_1_l in A, B. auto.
Qed.
Lemma polar_norm y x r : 0 < r -> y ^ 2 + x ^ 2 = r ^ 2 -> r * sin (atan2 y x) = y /\ r * cos (atan2 y x) = x.
Proof.
  intros Hr H. assert (Hh : hypot x y = r) by (apply hypot_uniq; lra). pose proof (hypot_cos_atan2 y x) as A. pose proof (hypot_sin_atan2 y x) as B. rewrite Hh in A, B. auto.
Qed.
Lemma norm2_unit x y : (x <> 0 \/ y <> 0) -> let '(p, q) := norm2 x y in p ^ 2 + q ^ 2 = 1 /\ hypot x y * p = x /\ hypot x y * q = y.
Proof.
  intros N. unfold norm2. pose proof (hypot_pos x y N) as P. pose proof (hypot_pow2 x y) as Q. set (h := hypot x y) in *. repeat split; try (field; lra).
  replace ((x / h) ^ 2 + (y / h) ^ 2) with ((x ^ 2 + y ^ 2) / h ^ 2) by (field; lra). rewrite <- Q. field. lra.
Qed.

(** The spherical triangle with given end latitudes and departure azimuth. *)
Section Triangle.
Variables (U1 U2 al al2 ca0 ss1 cs1 ss2 cs2 sg om : R).
Hypothesis C1 : 0 < cos U1.
Hypothesis C2 : 0 < cos U2.
Hypothesis A1 : ca0 * ss1 = sin U1.
Hypothesis A2 : ca0 * cs1 = cos al * cos U1.
Hypothesis A3 : ca0 * ss2 = sin U2.
Hypothesis A4 : ca0 * cs2 = cos al2 * cos U2.
Hypothesis N1 : ss1 ^ 2 + cs1 ^ 2 = 1.
Hypothesis N2 : ss2 ^ 2 + cs2 ^ 2 = 1.
Hypothesis CL : sin al * cos U1 = sin al2 * cos U2.
Hypothesis Sg : sin sg = cs1 * ss2 - ss1 * cs2.
Hypothesis Cg : cos sg = cs1 * cs2 + ss1 * ss2.
Let sa0 := sin al * cos U1.
Hypothesis Om1 : cos U1 * cos U2 * cos om = cs1 * cs2 + sa0 ^ 2 * (ss1 * ss2).
Hypothesis Om2 : cos U1 * cos U2 * sin om = sa0 * (cs1 * ss2 - ss1 * cs2).
Lemma tri_unit : sa0 ^ 2 = 1 - ca0 ^ 2.
Proof.
  pose proof (sc1 U1) as S. pose proof (sc1 al) as Sa. assert (E : ca0 ^ 2 = (ca0 * ss1) ^ 2 + (ca0 * cs1) ^ 2) by (replace (ca0 ^ 2) with (ca0 ^ 2 * (ss1 ^ 2 + cs1 ^ 2)) by (rewrite N1; ring); ring).
  rewrite E, A1, A2. unfold sa0. replace (cos U1 ^ 2) with (1 - sin U1 ^ 2) by nra. assert (sin al ^ 2 = 1 - cos al ^ 2) by nra. assert (cos U1 ^ 2 = 1 - sin U1 ^ 2) by nra.
  rewrite !Rpow_mult_distr. nra.
Qed.
Lemma tri_sig : ss1 * cos sg + cs1 * sin sg = ss2 /\ cs1 * cos sg - ss1 * sin sg = cs2.
Proof. rewrite Sg, Cg. split; [transitivity ((ss1 ^ 2 + cs1 ^ 2) * ss2); [ring|rewrite N1; ring]|transitivity ((ss1 ^ 2 + cs1 ^ 2) * cs2); [ring|rewrite N1; ring]]. Qed.
Lemma tri_move : forall l, L_vincenty4.gc_move U1 l al sg = unit_normal U2 (l + om).
Proof.
  destruct tri_sig as [X Y]. pose proof tri_unit as TU. apply move_at.
  - apply Rmult_eq_reg_l with (cos U1); [|lra]. rewrite <- Rmult_assoc, Om1, TU.
    replace (cos U1 * (cos U1 * cos sg - sin U1 * cos al * sin sg)) with (cos U1 ^ 2 * cos sg - sin U1 * (cos al * cos U1) * sin sg) by ring.
    replace (cos U1 ^ 2) with (1 - sin U1 ^ 2) by (pose proof (sc1 U1); nra). rewrite <- A2, <- A1.
    replace ((1 - (ca0 * ss1) ^ 2) * cos sg - ca0 * ss1 * (ca0 * cs1) * sin sg) with (cos sg - ca0 ^ 2 * ss1 * (ss1 * cos sg + cs1 * sin sg)) by ring. rewrite X, Cg. ring.
  - apply Rmult_eq_reg_l with (cos U1); [|lra]. rewrite <- (Rmult_assoc (cos U1) (cos U2)), Om2, Sg. unfold sa0. ring.
  - replace (cos U1 * cos al * sin sg) with ((cos al * cos U1) * sin sg) by ring. rewrite <- A1, <- A2, <- A3, <- X. ring.
Qed.
Lemma tri_tangent : forall l, gc_tangent U1 l al sg = heading_vector U2 (l + om) al2.
Proof.
  destruct tri_sig as [X Y]. apply tangent_at; [lra|exact tri_move|symmetry; exact CL|]. rewrite <- A4, <- A2, <- A1, <- Y. ring.
Qed.
End Triangle.

(** Longitudes that differ by whole turns. *)
Lemma conn_lam a b phi1 az1 phi2 az2 d lam lam' : sin lam = sin lam' -> cos lam = cos lam' -> conn a b phi1 az1 phi2 az2 d lam -> conn a b phi1 az1 phi2 az2 d lam'.
Proof.
  intros A B H l c t S. destruct (H l c t S) as [P Q]. rewrite P, Q. split.
  - unfold surface_point. rewrite !cos_plus, !sin_plus, A, B. reflexivity.
  - unfold heading_vector, north_axis, east_axis. rewrite !cos_plus, !sin_plus, A, B. reflexivity.
Qed.

(** ** The equation solved by Newton's method *)
Section Lambda.
Variables (g : Geodesic) (U1 U2 sa ca lam phi1 phi2 dn1 dn2 : R) (diffp : bool).
Hypothesis O : oblate g.
Hypothesis Hf : gd_f g <= 1 / 100.
Hypothesis C1 : 0 < cos U1.
Hypothesis C2 : 0 < cos U2.
Hypothesis R1 : reduces (gd_f g) phi1 U1.
Hypothesis R2 : reduces (gd_f g) phi2 U2.
Hypothesis Su : sa ^ 2 + ca ^ 2 = 1.
Hypothesis Sp : 0 <= sa.
Hypothesis Neq : sin U1 < 0.
Hypothesis Le : Rabs (sin U2) <= - sin U1.
Let L := Lambda12 g (sin U1) (cos U1) dn1 (sin U2) (cos U2) dn2 sa ca (sin lam) (cos lam) diffp.
Let n := gd_n g.
Let s12b := (1 + A1m1f (l_eps L)) * (l_sig12 L + (SinCosSeries true (l_ssig2 L) (l_csig2 L) (arr (C1f (l_eps L))) nC1 - SinCosSeries true (l_ssig1 L) (l_csig1 L) (arr (C1f (l_eps L))) nC1)).
Theorem lambda_geodesic : l_salp2 L ^ 2 + l_calp2 L ^ 2 = 1 /\ exists d lx,
  conn (gd_a g) (gd_b g) phi1 (atan2 sa ca) phi2 (atan2 (l_salp2 L) (l_calp2 L)) d lx /\
  Rabs (d - gd_b g * s12b) <= 80 * gd_b g * n ^ 7 /\ Rabs (lx - (lam + l_lam12 L)) <= 208 * n ^ 7.
Proof.
  pose proof O as (Hab & F & F1 & B & Ep & En & _). pose proof (oblate_f1 g O) as Ff. set (f := gd_f g) in *.
  destruct (unit_polar sa ca Su) as [AS AC]. set (al := atan2 sa ca) in *.
  unfold s12b, L, Lambda12. cbv zeta. destruct (Req_EM_T (sin U1) 0) as [X|_]; [lra|].
  pose proof (sc1 U1) as SU1. pose proof (sc1 U2) as SU2.
  set (ca0 := hypot ca (sa * sin U1)) in *. pose proof (hypot_pow2 ca (sa * sin U1)) as C0s. fold ca0 in C0s.
  assert (C0 : 0 < ca0). { apply hypot_pos. destruct (Req_dec ca 0) as [Z|Z]; [right|left; exact Z]. rewrite Z in Su. assert (sa <> 0) by nra. apply Rmult_integral_contrapositive_currified; lra. }
  assert (C0t : ca0 ^ 2 = sin U1 ^ 2 + (ca * cos U1) ^ 2) by (rewrite C0s, !Rpow_mult_distr; nra).
  assert (CC : cos U1 ^ 2 <= cos U2 ^ 2).
  { assert (sin U2 ^ 2 <= sin U1 ^ 2); [|nra]. apply Rabs_le_between in Le. nra. }
  (* arrival azimuth *)
  set (sp2 := if Req_EM_T (cos U2) (cos U1) then sa else sa * cos U1 / cos U2).
  assert (SP2 : sp2 * cos U2 = sa * cos U1). { unfold sp2. destruct (Req_EM_T (cos U2) (cos U1)) as [E|E]; [rewrite E; reflexivity|field; lra]. }
  set (cp2 := if Req_EM_T (cos U2) (cos U1) then if Req_EM_T (Rabs (sin U2)) (- sin U1) then Rabs ca else sqrt ((ca * cos U1) ^ 2 + (sin U1 - sin U2) * (sin U1 + sin U2)) / cos U2 else sqrt ((ca * cos U1) ^ 2 + (cos U2 - cos U1) * (cos U1 + cos U2)) / cos U2).
  assert (CP2 : 0 <= cp2 /\ (cp2 * cos U2) ^ 2 = (ca * cos U1) ^ 2 + (cos U2 ^ 2 - cos U1 ^ 2)).
  { assert (P0 : 0 <= (ca * cos U1) ^ 2) by apply pow2_ge_0. assert (Ic : 0 < / cos U2) by now apply Rinv_0_lt_compat.
    unfold cp2. destruct (Req_EM_T (cos U2) (cos U1)) as [E|E]; [destruct (Req_EM_T (Rabs (sin U2)) (- sin U1)) as [E'|E']|].
    - split; [apply Rabs_pos|]. rewrite Rpow_mult_distr, pow2_abs, E, Rpow_mult_distr. ring.
    - split; [apply Rmult_le_pos; [apply sqrt_pos|lra]|]. replace (sqrt ((ca * cos U1) ^ 2 + (sin U1 - sin U2) * (sin U1 + sin U2)) / cos U2 * cos U2) with (sqrt ((ca * cos U1) ^ 2 + (sin U1 - sin U2) * (sin U1 + sin U2))) by (field; lra).
      rewrite pow2_sqrt by nra. nra.
    - split; [apply Rmult_le_pos; [apply sqrt_pos|lra]|]. replace (sqrt ((ca * cos U1) ^ 2 + (cos U2 - cos U1) * (cos U1 + cos U2)) / cos U2 * cos U2) with (sqrt ((ca * cos U1) ^ 2 + (cos U2 - cos U1) * (cos U1 + cos U2))) by (field; lra).
      rewrite pow2_sqrt by nra. ring. }
  destruct CP2 as [CPp CP2].
  assert (UN : sp2 ^ 2 + cp2 ^ 2 = 1).
  { apply Rmult_eq_reg_r with (cos U2 ^ 2); [|apply pow_nonzero; lra]. rewrite Rmult_plus_distr_r, <- !Rpow_mult_distr, SP2, CP2, !Rpow_mult_distr. nra. }
  destruct (unit_polar sp2 cp2 UN) as [AS2 AC2]. set (al2 := atan2 sp2 cp2) in *.
  assert (H2t : ca0 ^ 2 = sin U2 ^ 2 + (cp2 * cos U2) ^ 2) by (rewrite CP2, C0t; nra).
  unfold norm2. assert (HY1 : hypot (sin U1) (ca * cos U1) = ca0) by (apply hypot_uniq; nra). assert (HY2 : hypot (sin U2) (cp2 * cos U2) = ca0) by (apply hypot_uniq; nra).
  fold sp2 cp2. rewrite HY1, HY2. cbn [l_lam12 l_salp2 l_calp2 l_sig12 l_ssig1 l_csig1 l_ssig2 l_csig2 l_eps]. fold al2.
  set (ss1 := sin U1 / ca0). set (cs1 := ca * cos U1 / ca0). set (ss2 := sin U2 / ca0). set (cs2 := cp2 * cos U2 / ca0).
  assert (D1 : ca0 * ss1 = sin U1) by (unfold ss1; field; lra). assert (D2 : ca0 * cs1 = ca * cos U1) by (unfold cs1; field; lra).
  assert (D3 : ca0 * ss2 = sin U2) by (unfold ss2; field; lra). assert (D4 : ca0 * cs2 = cp2 * cos U2) by (unfold cs2; field; lra).
  assert (N1 : ss1 ^ 2 + cs1 ^ 2 = 1). { unfold ss1, cs1. replace ((sin U1 / ca0) ^ 2 + (ca * cos U1 / ca0) ^ 2) with ((sin U1 ^ 2 + (ca * cos U1) ^ 2) / ca0 ^ 2) by (field; lra). rewrite <- C0t. field. lra. }
  assert (N2 : ss2 ^ 2 + cs2 ^ 2 = 1). { unfold ss2, cs2. replace ((sin U2 / ca0) ^ 2 + (cp2 * cos U2 / ca0) ^ 2) with ((sin U2 ^ 2 + (cp2 * cos U2) ^ 2) / ca0 ^ 2) by (field; lra). rewrite <- H2t. field. lra. }
  (* the arc *)
  assert (SG0 : 0 <= cs1 * ss2 - ss1 * cs2).
  { replace (cs1 * ss2 - ss1 * cs2) with ((ca * cos U1 * sin U2 - sin U1 * (cp2 * cos U2)) / ca0 ^ 2) by (unfold cs1, ss1, cs2, ss2; field; lra).
    apply Rmult_le_pos; [|left; apply Rinv_0_lt_compat; apply pow_lt; lra]. set (x := ca * cos U1) in *. set (y := cp2 * cos U2) in *.
    assert (Y0 : 0 <= y) by (unfold y; nra). assert (XY : Rabs x <= y) by (apply Rsqr_incr_0_var; [rewrite <- Rsqr_abs, !Rsqr_pow2; lra|exact Y0]).
    assert (Rabs (x * sin U2) <= y * - sin U1) by (rewrite Rabs_mult; apply Rmult_le_compat; try apply Rabs_pos; assumption).
    pose proof (Rle_abs (- (x * sin U2))) as Q. rewrite Rabs_Ropp in Q. lra. }
  replace 0.0 with 0 by lra. rewrite (Rmax_right 0 (cs1 * ss2 - ss1 * cs2)) by exact SG0.
  assert (NG : (cs1 * ss2 - ss1 * cs2) ^ 2 + (cs1 * cs2 + ss1 * ss2) ^ 2 = 1) by (transitivity ((ss1 ^ 2 + cs1 ^ 2) * (ss2 ^ 2 + cs2 ^ 2)); [ring|rewrite N1, N2; ring]).
  destruct (unit_polar _ _ NG) as [GS GC]. pose proof (atan2_range (cs1 * ss2 - ss1 * cs2) (cs1 * cs2 + ss1 * ss2)) as GR. set (sg := atan2 (cs1 * ss2 - ss1 * cs2) (cs1 * cs2 + ss1 * ss2)) in *.
  assert (sg0 : 0 <= sg <= PI). { split; [|lra]. apply Rnot_lt_le; intros X. pose proof (sin_lt_0_var sg ltac:(lra) X). lra. }
  set (sa0 := sa * cos U1) in *. assert (SA0 : sa0 ^ 2 = 1 - ca0 ^ 2) by (unfold sa0; rewrite C0t, !Rpow_mult_distr; nra).
  (* longitude on the auxiliary sphere *)
  assert (EO1 : ca * cos U1 * (sa0 * sin U2) - sa0 * sin U1 * (cp2 * cos U2) = ca0 ^ 2 * (sa0 * (cs1 * ss2 - ss1 * cs2))) by (rewrite <- D1, <- D2, <- D3, <- D4; ring).
  assert (EO2 : ca * cos U1 * (cp2 * cos U2) + sa0 * sin U1 * (sa0 * sin U2) = ca0 ^ 2 * (cs1 * cs2 + sa0 ^ 2 * (ss1 * ss2))) by (rewrite <- D1, <- D2, <- D3, <- D4; ring).
  rewrite EO1, EO2. assert (SAp : 0 <= sa0) by (unfold sa0; nra). assert (C0p : 0 < ca0 ^ 2) by (apply pow_lt; lra).
  rewrite Rmax_right by (apply Rmult_le_pos; [lra|]; now apply Rmult_le_pos).
  set (so := sa0 * (cs1 * ss2 - ss1 * cs2)). set (co := cs1 * cs2 + sa0 ^ 2 * (ss1 * ss2)).
  assert (NO : so ^ 2 + co ^ 2 = (cos U1 * cos U2) ^ 2).
  { unfold so, co. transitivity ((cs1 ^ 2 + sa0 ^ 2 * ss1 ^ 2) * (cs2 ^ 2 + sa0 ^ 2 * ss2 ^ 2)); [ring|].
    replace (cs1 ^ 2 + sa0 ^ 2 * ss1 ^ 2) with (cos U1 ^ 2). 2: { rewrite SA0. replace (cs1 ^ 2 + (1 - ca0 ^ 2) * ss1 ^ 2) with (ss1 ^ 2 + cs1 ^ 2 - (ca0 * ss1) ^ 2) by ring. rewrite N1, D1. nra. }
    replace (cs2 ^ 2 + sa0 ^ 2 * ss2 ^ 2) with (cos U2 ^ 2). 2: { rewrite SA0. replace (cs2 ^ 2 + (1 - ca0 ^ 2) * ss2 ^ 2) with (ss2 ^ 2 + cs2 ^ 2 - (ca0 * ss2) ^ 2) by ring. rewrite N2, D3. nra. }
    ring. }
  assert (Rp : 0 < cos U1 * cos U2) by now apply Rmult_lt_0_compat. destruct (polar_norm so co _ Rp NO) as [OS OC]. set (om := atan2 so co) in *.
  set (r := cos U1 * cos U2) in *.
  assert (NE : (ca0 ^ 2 * so * cos lam - ca0 ^ 2 * co * sin lam) ^ 2 + (ca0 ^ 2 * co * cos lam + ca0 ^ 2 * so * sin lam) ^ 2 = (ca0 ^ 2 * r) ^ 2).
  { transitivity ((ca0 ^ 2) ^ 2 * ((so ^ 2 + co ^ 2) * (sin lam * sin lam + cos lam * cos lam))); [ring|]. rewrite NO, sc1. ring. }
  destruct (polar_norm _ _ _ ltac:(apply Rmult_lt_0_compat; [exact C0p|exact Rp]) NE) as [ES EC].
  set (eta := atan2 (ca0 ^ 2 * so * cos lam - ca0 ^ 2 * co * sin lam) (ca0 ^ 2 * co * cos lam + ca0 ^ 2 * so * sin lam)) in *.
  assert (ET : sin eta = sin (om - lam) /\ cos eta = cos (om - lam)).
  { assert (ca0 ^ 2 * r <> 0) by (apply Rmult_integral_contrapositive_currified; lra). rewrite sin_minus, cos_minus. split; apply Rmult_eq_reg_l with (ca0 ^ 2 * r); try assumption; [rewrite ES|rewrite EC]; rewrite <- OS, <- OC; ring. }
  (* series *)
  set (k2 := ca0 ^ 2 * gd_ep2 g). set (e := eps_of k2).
  assert (Ep0 : 0 <= gd_ep2 g). { rewrite Ep. fold f. apply Rmult_le_pos; [nra|]. left. apply Rinv_0_lt_compat. nra. }
  assert (C01 : ca0 ^ 2 <= 1) by (pose proof (pow2_ge_0 sa0); lra).
  assert (Hk : 0 <= k2) by (unfold k2; nra). assert (He : e <= n).
  { unfold n, e. rewrite <- (eps_n g O). apply eps_incr. split; [exact Hk|]. unfold k2. nra. }
  destruct (eps_props k2 Hk) as [He0 _]. fold e in He0.
  assert (Hn : 0 <= n <= 1 / 150).
  { unfold n. rewrite En. fold f. split; [apply Rmult_le_pos; [lra|left; apply Rinv_0_lt_compat; lra]|]. apply Rmult_le_reg_r with (2 - f); [lra|]. replace (f / (2 - f) * (2 - f)) with f by (field; lra). lra. }
  destruct (unit_polar ss1 cs1 N1) as [T1s T1c]. set (t1 := atan2 ss1 cs1) in *.
  assert (T2s : sin (t1 + sg) = ss2 /\ cos (t1 + sg) = cs2).
  { rewrite sin_plus, cos_plus, T1s, T1c, GS, GC. split; [transitivity ((ss1 ^ 2 + cs1 ^ 2) * ss2); [ring|rewrite N1; ring]|transitivity ((ss1 ^ 2 + cs1 ^ 2) * cs2); [ring|rewrite N1; ring]]. }
  destruct T2s as [T2s T2c]. split; [exact UN|].
  assert (KK : ca0 ^ 2 * (f * (2 - f) / (1 - f) ^ 2) = k2) by (unfold k2; rewrite Ep, F1; reflexivity).
  exists (arc_dist (gd_a g) f ca0 t1 sg), (lam + eta + arc_turn f U1 al ca0 t1 sg). split; [|split].
  - apply conn_lam with (om + arc_turn f U1 al ca0 t1 sg).
    { destruct ET as [E1 E2]. set (w := arc_turn f U1 al ca0 t1 sg). replace (om + w) with ((om - lam) + (lam + w)) by ring. replace (lam + eta + w) with (eta + (lam + w)) by ring. rewrite !sin_plus, E1, E2. reflexivity. }
    { destruct ET as [E1 E2]. set (w := arc_turn f U1 al ca0 t1 sg). replace (om + w) with ((om - lam) + (lam + w)) by ring. replace (lam + eta + w) with (eta + (lam + w)) by ring. rewrite !cos_plus, E1, E2. reflexivity. }
    rewrite B, F1. fold f.
    assert (TM := tri_move U1 U2 al ca0 ss1 cs1 ss2 cs2 sg om C1 D1 ltac:(rewrite AC; exact D2) D3 N1 GS GC ltac:(rewrite AS; exact OC) ltac:(rewrite AS; exact OS)).
    assert (TT := tri_tangent U1 U2 al al2 ca0 ss1 cs1 ss2 cs2 sg om C1 C2 D1 ltac:(rewrite AC; exact D2) D3 ltac:(rewrite AC2; exact D4) N1 ltac:(rewrite AS, AS2; symmetry; exact SP2) GS GC ltac:(rewrite AS; exact OC) ltac:(rewrite AS; exact OS)).
    apply (exact_conn (gd_a g) f U1 al phi1 ca0 t1 sg U2 om al2 phi2); try assumption; try lra.
    + rewrite T1s. symmetry. exact D1.
    + rewrite T1c, AC. symmetry. exact D2.
  - unfold arc_dist. rewrite KK, <- F1, <- B.
    pose proof (distance_series k2 e Hk eq_refl ltac:(lra) t1 (t1 + sg)) as DS. replace (t1 + sg - t1) with sg in DS by ring. rewrite (Rabs_right sg) in DS by lra.
    replace (gd_b g * (dexact k2 (t1 + sg) - dexact k2 t1) - gd_b g * ((1 + A1m1f e) * (sg + (SinCosSeries true ss2 cs2 (arr (C1f e)) nC1 - SinCosSeries true ss1 cs1 (arr (C1f e)) nC1))))
      with (- (gd_b g * ((dser e (t1 + sg) - dser e t1) - (dexact k2 (t1 + sg) - dexact k2 t1)))) by (unfold dser; rewrite T2s, T2c, T1s, T1c; ring).
    rewrite Rabs_Ropp, Rabs_mult, (Rabs_right (gd_b g)) by lra. replace (80 * gd_b g * n ^ 7) with (gd_b g * (80 * n ^ 7)) by ring. apply Rmult_le_compat_l; [lra|].
    eapply Rle_trans; [exact DS|]. assert (E7 : e ^ 7 <= n ^ 7) by (apply pow_incr; lra). assert (0 <= e ^ 7) by (apply pow_le; lra). pose proof PI_4 as P4.
    nra.
  - set (dl := A3f g e * (sg + (SinCosSeries true ss2 cs2 (arr (C3f g e)) (nC3 - 1) - SinCosSeries true ss1 cs1 (arr (C3f g e)) (nC3 - 1)))).
    assert (DLs : dl = lser g e (t1 + sg) - lser g e t1) by (unfold dl, lser; rewrite T2s, T2c, T1s, T1c; ring).
    pose proof (longitude_series g k2 O Hk ltac:(unfold n in Hn; lra) He t1 (t1 + sg)) as LS. fold f e n in LS. rewrite <- DLs in LS. replace (t1 + sg - t1) with sg in LS by ring. rewrite (Rabs_right sg) in LS by lra.
    unfold arc_turn. rewrite KK, AS. fold sa0.
    fold f. match goal with |- Rabs ?x <= _ => replace x with (f * sa0 * (dl - (lexact f k2 (t1 + sg) - lexact f k2 t1))) by (unfold dl; ring) end.
    rewrite Rabs_mult, Rabs_mult, (Rabs_right f), (Rabs_right sa0) by lra.
    assert (Sa : sa0 <= 1) by nra.
    assert (Fn : f <= 2 * n). { unfold n. rewrite En. fold f. apply Rmult_le_reg_r with (2 - f); [lra|]. replace (2 * (f / (2 - f)) * (2 - f)) with (2 * f) by (field; lra). nra. }
    assert (N6 : 0 <= n ^ 6) by (apply pow_le; lra). pose proof PI_4 as P4.
    replace (208 * n ^ 7) with ((2 * n) * (104 * n ^ 6)) by ring.
    apply Rmult_le_compat; [nra|apply Rabs_pos|nra|]. eapply Rle_trans; [exact LS|]. nra.
Qed.
End Lambda.
