(** Great-circle motion: the Karney direct solver on a sphere. *)
From Coq Require Import Lia Psatz Nsatz.
From Verif Require Import PyMath L_PyMath M_ellipsoid M_time M_karney Spec L_karney L_karney2.
From Verif Require L_ecef L_vincenty L_vincenty3 L_vincenty4 L_ell.
Open Scope R_scope.

(** Unit tangent of the great circle after the arc s. *)
Definition gc_tangent (U l az s : R) : vec3 :=
  vadd (vscale (- sin s) (unit_normal U l)) (vscale (cos s) (vadd (vscale (cos az) (north_axis U l)) (vscale (sin az) (east_axis U l)))).

Lemma rad_deg x : radians (degrees x) = x.
Proof. unfold radians, degrees. field. apply PI_neq0. Qed.
Lemma deg_rad x : degrees (radians x) = x.
Proof. unfold radians, degrees. field. apply PI_neq0. Qed.
Lemma radians_plus a b : radians (a + b) = radians a + radians b.
Proof. unfold radians, Rdiv. ring. Qed.

Section Algebra.
Variables (sb cb sa ca ss1 cs1 sg ca0 : R).
Hypothesis Hb : sb ^ 2 + cb ^ 2 = 1.
Hypothesis Ha : sa ^ 2 + ca ^ 2 = 1.
Hypothesis Hcb : 0 < cb.
Hypothesis H0 : 0 <= ca0.
Hypothesis H0s : ca0 ^ 2 = ca ^ 2 + (sa * sb) ^ 2.
Hypothesis Hs : ca0 * ss1 = sb.
Hypothesis Hc : ca0 * cs1 = ca * cb.
Hypothesis H1 : ss1 ^ 2 + cs1 ^ 2 = 1.
Hypothesis Hdeg : ca0 = 0 -> ss1 = 0 /\ cs1 = 1.
Let sa0 := sa * cb.
Let ss2 := ss1 * cos sg + cs1 * sin sg.
Let cs2 := cs1 * cos sg - ss1 * sin sg.
Let cb2 := hypot sa0 (ca0 * cs2).
Let E := copysign 1 sa0.
Let so1 := sa * cb * sb.
Let co1 := ca * cb.
Let omg := E * (sg - (atan2 ss2 cs2 - atan2 ss1 cs1) + (atan2 (E * (sa0 * ss2)) cs2 - atan2 (E * so1) co1)).

Lemma alg_E : E * E = 1 /\ (E = 1 \/ E = -1).
Proof. unfold E, copysign. rewrite (Rabs_right 1) by lra. destruct (Rlt_dec sa0 0); split; try lra; auto. Qed.
Lemma alg_unit : ca0 ^ 2 + sa0 ^ 2 = 1.
Proof. rewrite H0s. unfold sa0. replace (cb) with cb by reflexivity. nra. Qed.
Lemma alg_2 : ss2 ^ 2 + cs2 ^ 2 = 1.
Proof.
  unfold ss2, cs2. pose proof (sc1 sg) as Q. rewrite <- H1 at 1.
  replace ((ss1 * cos sg + cs1 * sin sg) ^ 2 + (cs1 * cos sg - ss1 * sin sg) ^ 2) with ((ss1 ^ 2 + cs1 ^ 2) * (sin sg * sin sg + cos sg * cos sg)) by ring.
  rewrite Q. ring.
Qed.
Lemma alg_cb2 : cb2 ^ 2 = sa0 ^ 2 + (ca0 * cs2) ^ 2.
Proof. apply hypot_pow2. Qed.
Lemma alg_z : ca0 * ss2 = sb * cos sg + ca * cb * sin sg.
Proof. unfold ss2. rewrite <- Hs, <- Hc. ring. Qed.
Lemma alg_w : ca0 * cs2 = ca * cb * cos sg - sb * sin sg.
Proof. unfold cs2. rewrite <- Hs, <- Hc. ring. Qed.
Lemma alg_lat : (ca0 * ss2) ^ 2 + cb2 ^ 2 = 1.
Proof. rewrite alg_cb2. pose proof alg_unit. pose proof alg_2. nra. Qed.
Lemma alg_h2 : hypot cs2 (E * (sa0 * ss2)) = cb2.
Proof.
  apply hypot_uniq; [apply hypot_nonneg|]. pose proof alg_cb2. pose proof alg_unit. pose proof alg_2. destruct alg_E as [EE _].
  replace (cb2 * cb2) with (cb2 ^ 2) by ring. replace ((E * (sa0 * ss2)) ^ 2) with ((E * E) * (sa0 * ss2) ^ 2) by ring. rewrite EE. nra.
Qed.
Lemma alg_h1 : hypot co1 (E * so1) = cb * ca0.
Proof.
  apply hypot_uniq; [apply Rmult_le_pos; lra|]. destruct alg_E as [EE _].
  replace ((E * so1) ^ 2) with ((E * E) * so1 ^ 2) by ring. rewrite EE. unfold co1, so1.
  replace (cb * ca0 * (cb * ca0)) with (cb ^ 2 * ca0 ^ 2) by ring. rewrite H0s. ring.
Qed.
(** sig2 - sig1 agrees with sig12 up to whole turns. *)
Lemma alg_turn : exists k : Z, sg - (atan2 ss2 cs2 - atan2 ss1 cs1) = IZR k * (2 * PI).
Proof.
  assert (h1 : hypot cs1 ss1 = 1) by (apply hypot_uniq; nra).
  assert (h2 : hypot cs2 ss2 = 1) by (apply hypot_uniq; pose proof alg_2; nra).
  pose proof (hypot_cos_atan2 ss1 cs1) as C1. pose proof (hypot_sin_atan2 ss1 cs1) as S1. rewrite h1, Rmult_1_l in C1, S1.
  pose proof (hypot_cos_atan2 ss2 cs2) as C2. pose proof (hypot_sin_atan2 ss2 cs2) as S2. rewrite h2, Rmult_1_l in C2, S2.
  set (s1 := atan2 ss1 cs1) in *. set (s2 := atan2 ss2 cs2) in *.
  assert (Cd : cos (sg - (s2 - s1)) = 1).
  { replace (sg - (s2 - s1)) with ((s1 + sg) - s2) by ring. rewrite cos_minus, cos_plus, sin_plus, C1, S1, C2, S2.
    fold ss2 cs2. pose proof alg_2. lra. }
  assert (Sd : sin (sg - (s2 - s1)) = 0).
  { replace (sg - (s2 - s1)) with ((s1 + sg) - s2) by ring. rewrite sin_minus, cos_plus, sin_plus, C1, S1, C2, S2.
    fold ss2 cs2. lra. }
  destruct (sin_eq_0_0 _ Sd) as [k K]. rewrite K in *. destruct (Z.Even_or_Odd k) as [[j J]|[j J]].
  - exists j. rewrite J, mult_IZR. ring.
  - exfalso. rewrite J, plus_IZR, mult_IZR in Cd. replace ((2 * IZR j + 1) * PI) with (PI + IZR j * (2 * PI)) in Cd by ring.
    rewrite cos_period_Z, cos_PI in Cd. lra.
Qed.
Lemma alg_lon : cb2 <> 0 -> cb2 * cos omg = cb * cos sg - sb * ca * sin sg /\ cb2 * sin omg = sa * sin sg.
Proof.
  intros N. destruct alg_turn as [k K]. destruct alg_E as [EE Ec].
  pose proof (hypot_cos_atan2 (E * (sa0 * ss2)) cs2) as C2. pose proof (hypot_sin_atan2 (E * (sa0 * ss2)) cs2) as S2. rewrite alg_h2 in C2, S2.
  pose proof (hypot_cos_atan2 (E * so1) co1) as C1. pose proof (hypot_sin_atan2 (E * so1) co1) as S1. rewrite alg_h1 in C1, S1.
  unfold omg. rewrite K. set (w2 := atan2 (E * (sa0 * ss2)) cs2) in *. set (w1 := atan2 (E * so1) co1) in *.
  assert (Cw : cos (E * (IZR k * (2 * PI) + (w2 - w1))) = cos (w2 - w1)).
  { destruct Ec as [->| ->]; [rewrite Rmult_1_l|replace (-1 * (IZR k * (2 * PI) + (w2 - w1))) with (- (IZR k * (2 * PI) + (w2 - w1))) by ring; rewrite cos_neg];
    rewrite Rplus_comm, cos_period_Z; reflexivity. }
  assert (Sw : sin (E * (IZR k * (2 * PI) + (w2 - w1))) = E * sin (w2 - w1)).
  { destruct Ec as [->| ->]; [rewrite !Rmult_1_l|replace (-1 * (IZR k * (2 * PI) + (w2 - w1))) with (- (IZR k * (2 * PI) + (w2 - w1))) by ring; rewrite sin_neg];
    rewrite Rplus_comm, sin_period_Z; ring. }
  rewrite Cw, Sw. destruct (Req_dec ca0 0) as [Z|Z].
  - destruct (Hdeg Z) as [Y1 Y2]. assert (sb0 : sb = 0) by (rewrite <- Hs, Z; ring).
    assert (ca00 : ca = 0) by (apply Rmult_eq_reg_r with cb; [rewrite <- Hc, Z; ring|lra]).
    assert (W0 : w1 = 0). { unfold w1. replace (E * so1) with 0 by (unfold so1; rewrite sb0; ring). replace co1 with 0 by (unfold co1; rewrite ca00; ring). apply atan2_00. }
    rewrite W0, Rminus_0_r. rewrite C2. replace (cb2 * (E * sin w2)) with (E * (cb2 * sin w2)) by ring. rewrite S2.
    replace (E * (E * (sa0 * ss2))) with ((E * E) * (sa0 * ss2)) by ring. rewrite EE. unfold cs2, ss2, sa0. rewrite Y1, Y2, sb0, ca00.
    assert (CB : cb = 1) by nra. rewrite CB. split; ring.
  - rewrite cos_minus, sin_minus. assert (Ha2 : ca ^ 2 = 1 - sa ^ 2) by lra. assert (Hb2 : sb ^ 2 = 1 - cb ^ 2) by lra.
    assert (A : forall x y, ca0 ^ 2 * cb * x = ca0 ^ 2 * cb * y -> x = y).
    { intros x y Q. apply Rmult_eq_reg_l with (ca0 ^ 2 * cb); [exact Q|]. apply Rmult_integral_contrapositive. split; [apply pow_nonzero; exact Z|lra]. }
    pose proof alg_z as Az. pose proof alg_w as Aw. pose proof alg_unit as Au. unfold sa0 in Au. split; apply A.
    + replace (ca0 ^ 2 * cb * (cb2 * (cos w2 * cos w1 + sin w2 * sin w1)))
        with (ca0 * ((cb2 * cos w2) * (cb * ca0 * cos w1) + (cb2 * sin w2) * (cb * ca0 * sin w1))) by ring.
      rewrite C1, S1, C2, S2. unfold co1, so1, sa0.
      replace (ca0 * (cs2 * (ca * cb) + E * (sa * cb * ss2) * (E * (sa * cb * sb)))) with
        ((ca0 * cs2) * (ca * cb) + (E * E) * (ca0 * ss2) * sa ^ 2 * cb ^ 2 * sb) by ring.
      rewrite EE, Az, Aw. rewrite H0s. ring [Ha2 Hb2].
    + replace (ca0 ^ 2 * cb * (cb2 * (E * (sin w2 * cos w1 - cos w2 * sin w1))))
        with (ca0 * E * ((cb2 * sin w2) * (cb * ca0 * cos w1) - (cb2 * cos w2) * (cb * ca0 * sin w1))) by ring.
      rewrite C1, S1, C2, S2. unfold co1, so1, sa0.
      replace (ca0 * E * (E * (sa * cb * ss2) * (ca * cb) - cs2 * (E * (sa * cb * sb)))) with
        ((E * E) * (sa * cb) * ((ca0 * ss2) * (ca * cb) - (ca0 * cs2) * sb)) by ring.
      rewrite EE, Az, Aw. rewrite H0s. ring [Ha2 Hb2].
Qed.
End Algebra.

Lemma Direct_sphere g lat1 lon1 azi1 s12 : spherical g -> k_tiny <= cos (radians lat1) ->
  let U := radians lat1 in let l := radians lon1 in let az := radians azi1 in let sg := s12 / gd_b g in
  (forall z, L_vincenty4.gc_move U l az sg <> (0, 0, z)) ->
  let '(lat2, lon2, azi2) := Direct g lat1 lon1 azi1 s12 in
  unit_normal (radians lat2) (radians lon2) = L_vincenty4.gc_move U l az sg /\
  gc_tangent U l az sg = vadd (vscale (cos (radians azi2)) (north_axis (radians lat2) (radians lon2)))
                              (vscale (sin (radians azi2)) (east_axis (radians lat2) (radians lon2))).
Proof.
  intros S T U l az sg NP. rewrite (Direct_sphere_val g lat1 lon1 azi1 s12 S T). cbv zeta. fold U az. fold sg.
  pose proof tiny_pos as TP. assert (Hcb : 0 < cos U) by (unfold U; lra).
  pose proof (sc1 U) as SU. pose proof (sc1 az) as SA.
  assert (Hb : sin U ^ 2 + cos U ^ 2 = 1) by (rewrite <- SU; ring).
  assert (Ha : sin az ^ 2 + cos az ^ 2 = 1) by (rewrite <- SA; ring).
  destruct (hypot_unfold (cos az) (sin az * sin U)) as [C0 C0s]. set (ca0 := hypot (cos az) (sin az * sin U)) in *.
  assert (C0t : ca0 ^ 2 = sin U ^ 2 + (cos az * cos U) ^ 2) by (rewrite C0s; nra).
  pose proof (sig_pair_eq (sin U) (cos az * cos U) ca0 C0 C0t) as SP. destruct (sig_pair _ _) as [ss1 cs1].
  destruct SP as (S1 & S2 & S3 & S4). rewrite (Direct_end_sphere g lon1 _ _ _ _ _ _ sg S). cbv zeta. replace 1.0 with 1 by lra.
  pose proof (alg_lat (sin U) (cos U) (sin az) (cos az) ss1 cs1 sg ca0 Hb Ha C0 C0s S3) as AL.
  pose proof (alg_lon (sin U) (cos U) (sin az) (cos az) ss1 cs1 sg ca0 Hb Ha Hcb C0 C0s S1 S2 S3 S4) as AO.
  pose proof (alg_z (sin U) (cos U) (cos az) ss1 cs1 sg ca0 S1 S2) as AZ.
  pose proof (alg_w (sin U) (cos U) (cos az) ss1 cs1 sg ca0 S1 S2) as AW.
  set (ss2 := ss1 * cos sg + cs1 * sin sg) in *. set (cs2 := cs1 * cos sg - ss1 * sin sg) in *.
  assert (HB : 0 <= hypot (sin az * cos U) (ca0 * cs2)) by apply hypot_nonneg.
  set (cb2 := hypot (sin az * cos U) (ca0 * cs2)) in *.
  assert (GX : L_vincenty4.gc_move U l az sg = (cos l * (cos U * cos sg - sin U * cos az * sin sg) - sin l * (sin az * sin sg),
                                    sin l * (cos U * cos sg - sin U * cos az * sin sg) + cos l * (sin az * sin sg), ca0 * ss2)).
  { unfold L_vincenty4.gc_move. cbn. rewrite AZ. apply f_equal2; [apply f_equal2|]; ring. }
  assert (N : cb2 <> 0).
  { intros Z. pose proof (hypot_eq0 _ _ Z) as [Z1 Z2]. apply (NP (ca0 * ss2)). rewrite GX.
    assert (SA0 : sin az = 0) by (apply Rmult_integral in Z1; destruct Z1 as [Z1|Z1]; lra).
    assert (X0 : (cos U * cos sg - sin U * cos az * sin sg) = 0).
    { rewrite AW in Z2. rewrite SA0 in Ha. assert (CA : cos az ^ 2 = 1) by lra.
      replace (cos U * cos sg - sin U * cos az * sin sg) with (cos az * (cos az * cos U * cos sg - sin U * sin sg) + (1 - cos az ^ 2) * cos U * cos sg) by ring.
      rewrite Z2, CA. ring. }
    rewrite X0, SA0. apply f_equal2; [apply f_equal2|]; ring. }
  destruct (Req_EM_T cb2 0) as [Z|_]; [contradiction|]. specialize (AO N). set (omg := copysign 1 (sin az * cos U) * _) in *. destruct AO as [OC OS].
  rewrite !rad_deg. destruct (AngNormalize_congr (lon1 + degrees omg)) as [k K].
  assert (LN : radians (AngNormalize (lon1 + degrees omg)) = l + omg + IZR k * (2 * PI)).
  { rewrite K, !radians_plus, rad_deg. unfold l, radians. field. }
  rewrite LN. set (p2 := atan2 (ca0 * ss2) cb2).
  assert (HP : hypot cb2 (ca0 * ss2) = 1) by (apply hypot_uniq; nra).
  pose proof (hypot_cos_atan2 (ca0 * ss2) cb2) as PC. pose proof (hypot_sin_atan2 (ca0 * ss2) cb2) as PS. rewrite HP, Rmult_1_l in PC, PS. fold p2 in PC, PS.
  pose proof (hypot_cos_atan2 (sin az * cos U) (ca0 * cs2)) as ZC. pose proof (hypot_sin_atan2 (sin az * cos U) (ca0 * cs2)) as ZS.
  rewrite hypot_comm in ZC, ZS. fold cb2 in ZC, ZS. set (az2 := atan2 (sin az * cos U) (ca0 * cs2)) in *.
  unfold unit_normal, north_axis, east_axis. rewrite sin_period_Z, cos_period_Z, PC, PS.
  rewrite (cos_plus l omg), (sin_plus l omg).
  set (X := cos U * cos sg - sin U * cos az * sin sg) in *. set (Y := sin az * sin sg) in *.
  split.
  - rewrite GX. apply f_equal2; [apply f_equal2|]; [rewrite <- OC, <- OS; ring|rewrite <- OC, <- OS; ring|reflexivity].
  - assert (A : forall x y, cb2 ^ 2 * x = cb2 ^ 2 * y -> x = y).
    { intros x y Q. apply Rmult_eq_reg_l with (cb2 ^ 2); [exact Q|]. apply pow_nonzero. exact N. }
    assert (CB : cb2 ^ 2 = X ^ 2 + Y ^ 2).
    { transitivity ((cb2 * cos omg) ^ 2 + (cb2 * sin omg) ^ 2); [|rewrite OC, OS; reflexivity].
      pose proof (sc1 omg) as Q. replace ((cb2 * cos omg) ^ 2 + (cb2 * sin omg) ^ 2) with (cb2 ^ 2 * (sin omg * sin omg + cos omg * cos omg)) by ring. rewrite Q. ring. }
    assert (Qg : sin sg ^ 2 = 1 - cos sg ^ 2) by (pose proof (sc1 sg); nra). assert (Ha2 : cos az ^ 2 = 1 - sin az ^ 2) by lra. assert (Hb2 : sin U ^ 2 = 1 - cos U ^ 2) by lra.
    unfold gc_tangent. cbn -[pow].
    apply f_equal2; [apply f_equal2|]; apply A.
    + match goal with |- _ = ?r => replace r with
        (- (cb2 * cos az2) * (ca0 * ss2) * (cos l * (cb2 * cos omg) - sin l * (cb2 * sin omg)) - (cb2 * sin az2) * (sin l * (cb2 * cos omg) + cos l * (cb2 * sin omg))) by ring end.
      rewrite OC, OS, ZC, ZS, AZ, AW, CB. unfold X, Y. ring [Ha2 Hb2 Qg].
    + match goal with |- _ = ?r => replace r with
        (- (cb2 * cos az2) * (ca0 * ss2) * (sin l * (cb2 * cos omg) + cos l * (cb2 * sin omg)) + (cb2 * sin az2) * (cos l * (cb2 * cos omg) - sin l * (cb2 * sin omg))) by ring end.
      rewrite OC, OS, ZC, ZS, AZ, AW, CB. unfold X, Y. ring [Ha2 Hb2 Qg].
    + match goal with |- _ = ?r => replace r with (cb2 ^ 2 * (cb2 * cos az2)) by ring end. rewrite ZC, AW. ring.
Qed.
