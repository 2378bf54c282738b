(** The Karney inverse solver on a sphere: the canonical problem is solved exactly. *)
From Coq Require Import Lia Psatz.
From Verif Require Import PyMath L_PyMath M_ellipsoid M_time M_karney Spec L_karney L_karney2 L_karney3 L_karney4 L_karney5 L_karney6.
Open Scope R_scope.

Lemma tol0_pos : 0 < k_tol0.
Proof. unfold k_tol0. apply Rinv_0_lt_compat, pow_lt. lra. Qed.
Lemma newton_stop k eval s last : n_tripb s = false ->
  l_lam12 (eval (n_salp1 s) (n_calp1 s) (Nat.ltb (k_maxit2 - S k) k_maxit1)) = 0 ->
  newton_loop (S k) eval s last = (n_salp1 s, n_calp1 s, eval (n_salp1 s) (n_calp1 s) (Nat.ltb (k_maxit2 - S k) k_maxit1)).
Proof.
  intros T V. cbn [newton_loop]. rewrite V, T, Rabs_R0. cbn [orb]. pose proof tol0_pos.
  destruct (Rle_dec _ 0) as [X|_]; [|reflexivity]. destruct (Nat.ltb _ _); lra.
Qed.
Lemma sphere_lengths g sig ss1 cs1 dn1 ss2 cs2 dn2 cb1 cb2 : spherical g ->
  exists M12 M21, Lengths_out g 0 sig ss1 cs1 dn1 ss2 cs2 dn2 cb1 cb2 =
    (sig, dn2 * (cs1 * ss2) - dn1 * (ss1 * cs2), 0, M12, M21).
Proof.
  intros (F0 & F1 & P & _). unfold Lengths_out. cbv zeta.
  rewrite !(series_zero true _ _ (arr (C1f 0))) by (intros; apply series_coeffs_0). rewrite !(series_zero true _ _ (arr (C2f 0))) by (intros; apply series_coeffs_0).
  rewrite A1_0, A2_0. eexists _, _. apply f_equal2; [|reflexivity]. apply f_equal2; [|reflexivity]. apply f_equal2; [apply f_equal2|]; lra.
Qed.

Section Sphere.
Variables (sb1 cb1 sb2 cb2 sl cl : R).
Hypothesis U1 : sb1 ^ 2 + cb1 ^ 2 = 1.
Hypothesis U2 : sb2 ^ 2 + cb2 ^ 2 = 1.
Hypothesis UL : sl ^ 2 + cl ^ 2 = 1.
Hypothesis C1 : 0 < cb1.
Hypothesis C2 : 0 < cb2.
Hypothesis N1 : sb1 <= 0.
Hypothesis N2 : - (- sb1) <= sb2 <= - sb1.
Hypothesis L0 : 0 <= sl.
Definition gT1 := sb2 * cb1 - cb2 * sb1 * cl.
Definition gT2 := cb1 * sb2 * cl - sb1 * cb2.
Definition gC := sb1 * sb2 + cb1 * cb2 * cl.
Definition gS := hypot (cb2 * sl) gT1.
Let e1 : sb1 ^ 2 = 1 - cb1 ^ 2. Proof. lra. Qed.
Let e2 : sb2 ^ 2 = 1 - cb2 ^ 2. Proof. lra. Qed.
Let el : sl ^ 2 = 1 - cl ^ 2. Proof. lra. Qed.

Lemma cb12 : cb1 <= cb2.
Proof. assert (sb2 ^ 2 <= sb1 ^ 2) by nra. nra. Qed.
Lemma cl_range : -1 <= cl <= 1.
Proof. nra. Qed.
Lemma gS_sq : gS ^ 2 = 1 - gC ^ 2.
Proof. unfold gS. rewrite hypot_pow2. unfold gT1, gC. ring [e1 e2 el]. Qed.
Lemma gS_nn : 0 <= gS. Proof. apply hypot_nonneg. Qed.
Lemma gS2 : gS ^ 2 = (cb2 * sl) ^ 2 + gT1 ^ 2.
Proof. unfold gS. apply hypot_pow2. Qed.
Lemma gS2' : gS ^ 2 = (cb1 * sl) ^ 2 + gT2 ^ 2.
Proof. rewrite gS_sq. unfold gC, gT2. ring [e1 e2 el]. Qed.
Lemma gT2_nn : 0 <= gT2.
Proof.
  unfold gT2. pose proof cl_range. pose proof cb12. assert (HA : Rabs (sb2 * cl) <= - sb1).
  { rewrite Rabs_mult. replace (- sb1) with (- sb1 * 1) by ring. apply Rmult_le_compat; try apply Rabs_pos; apply Rabs_le; lra. }
  pose proof (Rle_abs (- (sb2 * cl))) as HB. rewrite Rabs_Ropp in HB. replace (cb1 * sb2 * cl - sb1 * cb2) with (cb1 * (sb2 * cl) + - sb1 * cb2) by ring.
  assert (cb1 * (sb2 * cl) >= cb1 * sb1) by nra. nra.
Qed.
Lemma id_sig : gT1 * cb1 * sb2 - sb1 * cb2 * gT2 = gS ^ 2 * sb1 ^ 2 + gT1 ^ 2 * cb1 ^ 2.
Proof. rewrite gS_sq. unfold gC, gT1, gT2. ring [e1 e2 el]. Qed.
Lemma id_csig : gT1 * cb1 * (gT2 * cb2) + gS ^ 2 * (sb1 * sb2) = gC * (gS ^ 2 * sb1 ^ 2 + gT1 ^ 2 * cb1 ^ 2).
Proof. rewrite gS_sq. unfold gC, gT1, gT2. ring [e1 e2 el]. Qed.
Lemma id_comg : gT1 * cb1 * (gT2 * cb2) + (cb2 * sl * cb1) ^ 2 * (sb1 * sb2) = cb1 * cb2 * cl * (gS ^ 2 * sb1 ^ 2 + gT1 ^ 2 * cb1 ^ 2).
Proof. rewrite gS_sq. unfold gC, gT1, gT2. ring [e1 e2 el]. Qed.
Lemma id_alp2 : (gT1 * cb1) ^ 2 + gS ^ 2 * (cb2 ^ 2 - cb1 ^ 2) = (gT2 * cb2) ^ 2.
Proof. rewrite gS_sq. unfold gC, gT1, gT2. ring [e1 e2 el]. Qed.
Definition gR2 := sb1 ^ 2 + (gT1 / gS * cb1) ^ 2.

Section NonMeridian.
Hypothesis LP : 0 < sl.
Hypothesis M1 : sb1 < 0.
Lemma gS_pos : 0 < gS.
Proof. apply hypot_pos. left. apply Rgt_not_eq. apply Rmult_lt_0_compat; lra. Qed.
Definition sa1 := cb2 * sl / gS.
Definition ca1 := gT1 / gS.
Lemma start_exact g dn1 dn2 lam12 : spherical g -> sl = sin lam12 -> cl = cos lam12 ->
  InverseStart g sb1 cb1 dn1 sb2 cb2 dn2 lam12 sl cl = (sa1, ca1).
Proof.
  intros (F0 & F1 & P & _) Es Ec. unfold InverseStart. cbv zeta. rewrite F0, F1, P.
  replace 0.5 with (/ 2) by lra. replace 1.0 with 1 by lra.
  assert (OM : forall b : bool, (if b then
      (sin (lam12 / (1 * sqrt (1 + 0 * ((sb1 + sb2) ^ 2 / ((sb1 + sb2) ^ 2 + (cb1 + cb2) ^ 2))))),
       cos (lam12 / (1 * sqrt (1 + 0 * ((sb1 + sb2) ^ 2 / ((sb1 + sb2) ^ 2 + (cb1 + cb2) ^ 2)))))) else (sl, cl)) = (sl, cl)).
  { intros [|]; [|reflexivity]. rewrite Rmult_0_l, Rplus_0_r, sqrt_1, Rmult_1_l. unfold Rdiv. rewrite Rinv_1, Rmult_1_r, <- Es, <- Ec. reflexivity. }
  rewrite OM. pose proof cl_range as CR.
  assert (CA : (if Rle_dec 0 cl then sb2 * cb1 - cb2 * sb1 + cb2 * sb1 * sl ^ 2 / (1 + cl) else sb2 * cb1 + cb2 * sb1 - cb2 * sb1 * sl ^ 2 / (1 - cl)) = gT1).
  { unfold gT1. rewrite el. destruct (Rle_dec 0 cl); field; repeat split; lra. }
  rewrite CA. fold gS. assert (OK : (if Rle_dec 0 (sb1 * sb2 + cb1 * cb2 * cl) then true else if Rle_dec (6 * Rabs 0 * PI * cb1 ^ 2) gS then true else false) = true).
  { destruct (Rle_dec 0 (sb1 * sb2 + cb1 * cb2 * cl)); [reflexivity|]. destruct (Rle_dec (6 * Rabs 0 * PI * cb1 ^ 2) gS) as [|X]; [reflexivity|]. exfalso. apply X. rewrite Rabs_R0.
    replace (6 * 0 * PI * cb1 ^ 2) with 0 by ring. apply gS_nn. }
  rewrite OK. destruct (Rlt_dec 0 (cb2 * sl)) as [_|X]; [|exfalso; apply X; apply Rmult_lt_0_compat; lra].
  unfold norm2. fold gS. reflexivity.
Qed.
Lemma R2_eq : gS ^ 2 * gR2 = gS ^ 2 * sb1 ^ 2 + gT1 ^ 2 * cb1 ^ 2.
Proof. unfold gR2. pose proof gS_pos. field; repeat split; lra. Qed.
Lemma R2_pos : 0 < gR2.
Proof. unfold gR2. pose proof (pow2_ge_0 (gT1 / gS * cb1)). assert (0 < sb1 ^ 2) by nra. lra. Qed.
Lemma lambda_exact g dn1 dn2 diffp : spherical g ->
  let L := Lambda12 g sb1 cb1 dn1 sb2 cb2 dn2 sa1 ca1 sl cl diffp in
  l_lam12 L = 0 /\ l_eps L = 0 /\ l_sig12 L = atan2 gS gC /\ l_salp2 L = cb1 * sl / gS /\ l_calp2 L = gT2 / gS.
Proof.
  intros (F0 & F1 & P & _). unfold Lambda12. cbv zeta. destruct (Req_EM_T sb1 0) as [|_]; [lra|].
  pose proof gS_pos as SP. pose proof cb12 as CC. pose proof gT2_nn as T2. pose proof R2_pos as RP. pose proof R2_eq as RE.
  set (salp2 := if Req_EM_T cb2 cb1 then sa1 else sa1 * cb1 / cb2).
  assert (E2s : salp2 = cb1 * sl / gS).
  { unfold salp2, sa1. destruct (Req_EM_T cb2 cb1) as [->|]; field; repeat split; lra. }
  set (calp2 := if Req_EM_T cb2 cb1 then _ else _).
  assert (RAD : (ca1 * cb1) ^ 2 + (cb2 ^ 2 - cb1 ^ 2) = (gT2 * cb2 / gS) ^ 2).
  { unfold ca1. apply Rmult_eq_reg_l with (gS ^ 2); [|apply pow_nonzero; lra]. transitivity ((gT1 * cb1) ^ 2 + gS ^ 2 * (cb2 ^ 2 - cb1 ^ 2)); [field; repeat split; lra|].
    rewrite id_alp2. field; repeat split; lra. }
  assert (GN : 0 <= gT2 * cb2 / gS) by (apply Rmult_le_pos; [apply Rmult_le_pos; lra|left; apply Rinv_0_lt_compat; lra]).
  assert (E2c : calp2 = gT2 / gS).
  { unfold calp2. destruct (Req_EM_T cb2 cb1) as [CE|_].
    - destruct (Req_EM_T (Rabs sb2) (- sb1)) as [A|A].
      + rewrite CE in RAD, GN. assert (Q : Rabs (ca1 * cb1) = gT2 * cb1 / gS).
        { rewrite <- (Rabs_right (gT2 * cb1 / gS)) by lra. apply Rsqr_eq_abs_0. rewrite !Rsqr_pow2. rewrite <- RAD. ring. }
        rewrite Rabs_mult, (Rabs_right cb1) in Q by lra. apply Rmult_eq_reg_r with cb1; [|lra]. rewrite Q. field; repeat split; lra.
      + replace ((sb1 - sb2) * (sb1 + sb2)) with (cb2 ^ 2 - cb1 ^ 2) by (clear - U1 U2; lra). rewrite RAD, sqrt_pow2 by exact GN. field; repeat split; lra.
    - replace ((cb2 - cb1) * (cb1 + cb2)) with (cb2 ^ 2 - cb1 ^ 2) by ring. rewrite RAD, sqrt_pow2 by exact GN. field; repeat split; lra. }
  assert (r1 : hypot sb1 (ca1 * cb1) = sqrt gR2) by reflexivity.
  assert (r2 : hypot sb2 (calp2 * cb2) = sqrt gR2).
  { unfold hypot. f_equal. rewrite E2c. unfold gR2. replace (gT2 / gS * cb2) with (gT2 * cb2 / gS) by (field; repeat split; lra). rewrite <- RAD. unfold ca1. lra. }
  unfold norm2. rewrite r1, r2. cbv beta iota zeta. cbn [l_lam12 l_eps l_sig12 l_salp2 l_calp2].
  set (r := sqrt gR2). assert (rp : 0 < r) by (apply sqrt_lt_R0; exact RP). assert (rr : r * r = gR2) by (apply sqrt_sqrt; lra).
  assert (SS : ca1 * cb1 / r * (sb2 / r) - sb1 / r * (calp2 * cb2 / r) = gS).
  { rewrite E2c. transitivity ((gT1 * cb1 * sb2 - sb1 * cb2 * gT2) / (gS * (r * r))); [unfold ca1; field; repeat split; lra|]. rewrite id_sig, <- RE, rr. field; repeat split; lra. }
  assert (CS : ca1 * cb1 / r * (calp2 * cb2 / r) + sb1 / r * (sb2 / r) = gC).
  { rewrite E2c. transitivity ((gT1 * cb1 * (gT2 * cb2) + gS ^ 2 * (sb1 * sb2)) / (gS ^ 2 * (r * r))); [unfold ca1; field; repeat split; lra|]. rewrite id_csig, <- RE, rr. field; repeat split; lra. }
  rewrite SS, CS. replace 0.0 with 0 by lra. rewrite (Rmax_right 0 gS) by lra.
  assert (SO : ca1 * cb1 * (sa1 * cb1 * sb2) - sa1 * cb1 * sb1 * (calp2 * cb2) = cb1 * cb2 * gR2 * sl).
  { transitivity (sa1 * cb1 * (r * r) * (ca1 * cb1 / r * (sb2 / r) - sb1 / r * (calp2 * cb2 / r))); [field; repeat split; lra|]. rewrite SS, rr. unfold sa1. field; repeat split; lra. }
  assert (CO : ca1 * cb1 * (calp2 * cb2) + sa1 * cb1 * sb1 * (sa1 * cb1 * sb2) = cb1 * cb2 * gR2 * cl).
  { rewrite E2c. transitivity ((gT1 * cb1 * (gT2 * cb2) + (cb2 * sl * cb1) ^ 2 * (sb1 * sb2)) / gS ^ 2); [unfold ca1, sa1; field; repeat split; lra|]. rewrite id_comg, <- RE. field; repeat split; lra. }
  rewrite SO, CO. rewrite Rmax_right by (apply Rmult_le_pos; [repeat apply Rmult_le_pos; lra|lra]).
  rewrite F0, P, Rmult_0_r, eps_0. repeat split; try assumption; try reflexivity.
  rewrite (atan2_unique _ _ 0 (cb1 * cb2 * gR2)).
  - unfold Rdiv. ring.
  - repeat apply Rmult_lt_0_compat; lra.
  - pose proof PI_RGT_0. lra.
  - rewrite sin_0. ring.
  - rewrite cos_0. ring [el].
Qed.
End NonMeridian.

(** The canonical problem on a sphere. *)
Lemma core_sphere g A lon12s lam12 : spherical g -> A <> -90 -> sl = sin lam12 -> cl = cos lam12 -> 0 <= lam12 <= PI ->
  exists sa ca sa' ca', Inverse_core g A sb1 cb1 sb2 cb2 (degrees lam12) lon12s lam12 sl cl = (gd_b g * atan2 gS gC, (sa, ca), (sa', ca')) /\
    gS * sa = cb2 * sl /\ gS * ca = gT1 /\ gS * sa' = cb1 * sl /\ gS * ca' = gT2 /\ sa ^ 2 + ca ^ 2 = 1 /\ sa' ^ 2 + ca' ^ 2 = 1.
Proof.
  intros S HA Es Ec HL. pose proof S as (F0 & F1 & P & B & AB & Nn). unfold Inverse_core. cbv zeta.
  destruct (Req_EM_T A (-90)) as [|_]; [contradiction|]. rewrite P, !Rmult_0_l, Rplus_0_r.
  replace (sqrt 1.0) with 1 by (replace 1.0 with 1 by lra; now rewrite sqrt_1). replace 0.0 with 0 by lra. replace 1.0 with 1 by lra. rewrite Nn.
  destruct (Req_EM_T sl 0) as [Z|Z].
  - assert (CL : cl = 1 \/ cl = -1) by (assert (Q : cl ^ 2 = 1) by (rewrite Z in UL; lra); assert (X : (cl - 1) * (cl + 1) = 0) by (ring_simplify; lra); apply Rmult_integral in X; lra).
    assert (C2q : cl * cl = 1) by (destruct CL as [-> | ->]; ring).
    assert (SS : cl * cb1 * sb2 - sb1 * (1 * cb2) = gS).
    { assert (Q : cl * cb1 * sb2 - sb1 * (1 * cb2) = gT2) by (unfold gT2; ring). rewrite Q. symmetry. apply hypot_uniq; [apply gT2_nn|].
      rewrite Z. replace (gT2 * gT2) with (gT2 ^ 2) by ring. assert (G : gT1 = cl * gT2) by (unfold gT1, gT2; ring [C2q]). rewrite G. ring [C2q]. }
    assert (CS : cl * cb1 * (1 * cb2) + sb1 * sb2 = gC) by (unfold gC; ring).
    rewrite SS, CS. pose proof gS_nn as SN. rewrite Rmax_right by exact SN.
    destruct (sphere_lengths g (atan2 gS gC) sb1 (cl * cb1) 1 sb2 (1 * cb2) 1 cb1 cb2 S) as (M12 & M21 & ->).
    replace (1 * (cl * cb1 * sb2) - 1 * (sb1 * (1 * cb2))) with gS by (rewrite <- SS; ring).
    assert (T : (if Rlt_dec (atan2 gS gC) 1 then true else if Rle_dec 0 gS then true else false) = true).
    { destruct (Rlt_dec _ _); [reflexivity|]. destruct (Rle_dec 0 gS); [reflexivity|contradiction]. }
    rewrite T. exists sl, cl, 0, 1. rewrite Z in *. split; [f_equal; f_equal; ring|].
    assert (GT : gT2 = gS) by (rewrite <- SS; unfold gT2; ring).
    repeat split; try ring. + rewrite <- GT. unfold gT1, gT2. ring [C2q]. + lra. + lra.
  - destruct (Req_EM_T sb1 0) as [E|E].
    + rewrite F0. destruct (Rle_dec 0 0) as [_|]; [|lra]. exists 1, 0, 1, 0. assert (s20 : sb2 = 0) by lra.
      assert (c11 : cb1 = 1) by (rewrite E in U1; nra). assert (c21 : cb2 = 1) by (rewrite s20 in U2; nra).
      assert (GT1 : gT1 = 0) by (unfold gT1; rewrite E, s20; ring). assert (GT2 : gT2 = 0) by (unfold gT2; rewrite E, s20; ring).
      assert (GS : gS = sl) by (unfold gS; rewrite GT1, hypot_x0, c21, Rmult_1_l; apply Rabs_right; lra).
      assert (GC : gC = cl) by (unfold gC; rewrite E, c11, c21; ring).
      rewrite GS, GC, GT1, GT2, c11, c21. split.
      * f_equal. f_equal. rewrite AB. f_equal. symmetry. apply (atan2_unique _ _ _ 1); [lra| |lra|lra]. pose proof PI_RGT_0. lra.
      * repeat split; ring.
    + assert (LP : 0 < sl) by lra. assert (M1 : sb1 < 0) by lra.
      rewrite (start_exact LP g 1 1 lam12 S Es Ec).
      pose proof (lambda_exact LP M1 g 1 1 (Nat.ltb (k_maxit2 - 31) k_maxit1) S) as LE. cbv zeta in LE.
      set (ev := fun salp1 calp1 diffp => Lambda12 g sb1 cb1 1 sb2 cb2 1 salp1 calp1 sl cl diffp).
      change k_maxit2 with (Datatypes.S 30) at 1.
      rewrite (newton_stop 30 ev (mkNstate sa1 ca1 k_tiny 1 k_tiny (-1.0) false) no_lambda eq_refl); cbn [n_salp1 n_calp1].
      2: { unfold ev. apply LE. }
      unfold ev. set (L := Lambda12 _ _ _ _ _ _ _ _ _ _ _ _) in *. destruct LE as (_ & Le & Ls & L1 & L2). rewrite Le.
      destruct (sphere_lengths g (l_sig12 L) (l_ssig1 L) (l_csig1 L) 1 (l_ssig2 L) (l_csig2 L) 1 cb1 cb2 S) as (M12 & M21 & ->).
      exists sa1, ca1, (l_salp2 L), (l_calp2 L). rewrite Ls. pose proof (gS_pos LP) as SP. split; [f_equal; f_equal; ring|].
      rewrite L1, L2. unfold sa1, ca1. repeat split; try (field; repeat split; lra).
      * transitivity (((cb2 * sl) ^ 2 + gT1 ^ 2) / gS ^ 2); [field; repeat split; lra|]. rewrite <- gS2. field; repeat split; lra.
      * transitivity (((cb1 * sl) ^ 2 + gT2 ^ 2) / gS ^ 2); [field; repeat split; lra|]. rewrite <- gS2'. field; repeat split; lra.
Qed.
End Sphere.
