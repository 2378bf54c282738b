(** What Karney's longitude equation and its derivative are, as functions of the
    longitude on the auxiliary sphere. *)
From Coq Require Import Reals Lra Lia Psatz.
From Coquelicot Require Import Coquelicot.
From Verif Require Import PyMath M_karney L_PyMath L_karney L_karney2 L_karney3 L_karney5 L_karney7 L_series1 L_series2 L_series3 L_vincenty3 L_vin1 L_vin3 L_geodesic5 L_geodesic9 L_geodesic12 L_newton1 L_newton3.
From Verif Require L_vincenty2 L_latitude2.
Open Scope R_scope.

Lemma series_lin c s (A B : nat -> R) a b : SinCosSeries true s c (fun l => a * A l - b * B l) 6 = a * SinCosSeries true s c A 6 - b * SinCosSeries true s c B 6.
Proof. unfold SinCosSeries. change (Nat.odd 6) with false. change (6 / 2)%nat with 3%nat. cbv iota beta zeta. cbn [clenshaw_loop]. replace 0.0 with 0 by lra. ring. Qed.
Lemma oblate_small g : oblate g -> gd_f g <= 1 / 100 -> 0 <= gd_n g <= 1 / 199 /\ 0 <= gd_ep2 g <= 204 / 10000 /\ gd_n g <= 100 / 199 * gd_f g /\ gd_f1 g ^ 2 * (1 + gd_ep2 g) = 1 /\
  gd_f1 g * gd_ep2 g <= 203 / 100 * gd_f g.
Proof.
  intros (Hab & F & F1 & B & Ep & En & _) Hf. rewrite Ep, En, F1. set (f := gd_f g) in *. assert (I2 : 0 < / (2 - f) <= 100 / 199).
  { split; [apply Rinv_0_lt_compat; lra|]. apply Rmult_le_reg_r with (2 - f); [lra|]. rewrite Rinv_l; lra. }
  assert (I1 : 0 < / (1 - f) <= 100 / 99). { split; [apply Rinv_0_lt_compat; lra|]. apply Rmult_le_reg_r with (1 - f); [lra|]. rewrite Rinv_l; lra. }
  assert (Q : f * (2 - f) / (1 - f) ^ 2 = f * (2 - f) * (/ (1 - f) * / (1 - f))) by (field; lra).
  assert (J : / (1 - f) * / (1 - f) <= 100 / 99 * (100 / 99)) by (apply Rmult_le_compat; lra). assert (J0 : 0 <= / (1 - f) * / (1 - f)) by (apply Rmult_le_pos; lra).
  split; [unfold Rdiv; split; nra|]. split; [rewrite Q; split; [apply Rmult_le_pos; nra|]; apply Rle_trans with (1 / 100 * (2 - 1 / 100) * (100 / 99 * (100 / 99))); [apply Rmult_le_compat; nra|lra]|].
  split; [unfold Rdiv; nra|]. split; [field; lra|]. replace ((1 - f) * (f * (2 - f) / (1 - f) ^ 2)) with (f * ((2 - f) * / (1 - f))) by (field; lra). nra.
Qed.
Lemma dn_facts ep2 s : 0 <= ep2 -> 1 <= sqrt (1.0 + ep2 * s ^ 2) /\ sqrt (1.0 + ep2 * s ^ 2) ^ 2 = 1 + ep2 * s ^ 2.
Proof. intros H. replace 1.0 with 1 by lra. pose proof (pow2_ge_0 s). assert (0 <= ep2 * s ^ 2) by (apply Rmult_le_pos; lra). split; [apply sqrt_ge1; lra|apply pow2_sqrt; lra]. Qed.
Lemma fd_facts f f1 ep2 s d : 0 <= f <= 1 / 100 -> f1 = 1 - f -> f1 ^ 2 * (1 + ep2) = 1 -> 0 <= ep2 -> 0 <= s ^ 2 <= 1 -> 1 <= d -> d ^ 2 = 1 + ep2 * s ^ 2 -> 1 - f <= f1 * d <= 1.
Proof.
  intros F -> E P Q D D2. split; [nra|]. assert (X : ((1 - f) * d) ^ 2 <= 1); [|assert (0 <= (1 - f) * d) by (apply Rmult_le_pos; lra); clear - X H; apply Rnot_lt_le; intros Y; nra].
  rewrite Rpow_mult_distr, D2. apply Rle_trans with ((1 - f) ^ 2 * (1 + ep2)); [|lra]. apply Rmult_le_compat_l; [apply pow2_ge_0|]. assert (ep2 * s ^ 2 <= ep2 * 1) by (apply Rmult_le_compat_l; lra). lra.
Qed.
Lemma ddiff_facts d1 d2 ep2 S y : 1 <= d1 -> 1 <= d2 -> 0 <= ep2 -> 0 <= S -> (d2 - d1) * (d2 + d1) = y -> Rabs y <= ep2 * S -> Rabs (d2 - d1) <= ep2 / 2 * S.
Proof. intros H1 H2 E Sp X Y. rewrite <- X, Rabs_mult, (Rabs_right (d2 + d1)) in Y by lra. pose proof (Rabs_pos (d2 - d1)). nra. Qed.
Section Eq.
Variables (g : Geodesic) (U1 U2 lam o : R).
Hypothesis O : oblate g.
Hypothesis Hf : gd_f g <= 1 / 100.
Hypothesis V1 : - PI/2 < U1 < PI/2.
Hypothesis V2 : - PI/2 < U2 < PI/2.
Hypothesis N1 : sin U1 < 0.
Hypothesis Le : Rabs (sin U2) <= - sin U1.
Hypothesis Ho : 0 < o < PI.
Hypothesis Hl : Rabs (o - lam) < PI.
Let s1 := sin U1. Let s2 := sin U2. Let c1 := cos U1. Let c2 := cos U2.
Let dn1 := sqrt (1.0 + gd_ep2 g * s1 ^ 2). Let dn2 := sqrt (1.0 + gd_ep2 g * s2 ^ 2).
Let S := aS U1 U2 o. Let T1 := aT1 U1 U2 o. Let T2 := aT2 U1 U2 o. Let x := xx U1 U2 o. Let sig := sg U1 U2 o.
Let n := gd_n g. Let ep2 := gd_ep2 g. Let f := gd_f g.
Let ev := Lambda12 g s1 c1 dn1 s2 c2 dn2 (sin (az U1 U2 o)) (cos (az U1 U2 o)) (sin lam) (cos lam) true.
Theorem equation_at : l_lam12 ev = o - lam + hcor n ep2 U1 U2 f o /\ Rabs (l_dlam12 ev * aw U1 U2 o - 1) <= f * (103 / 100 * (sig / S) + 303 / 100).
Proof.
  destruct (oblate_small g O Hf) as (Hn & Hp & Nf & FP & FE). fold n in Hn, Nf. fold ep2 in Hp, FP, FE. fold f in Nf, FE. pose proof O as (Hab & F & F1 & _). fold f in F.
  pose proof (aS_pos U1 U2 V1 V2 o Ho) as Sp. fold S in Sp. pose proof (aT2_pos U1 U2 V1 V2 N1 Le o Ho) as TP. fold T2 in TP. pose proof (c12 U1 U2 V1 V2 Le) as CC. fold c1 c2 in CC.
  destruct (c_pos U1 U2 V1 V2) as [P1 P2]. fold c1 in P1. fold c2 in P2. pose proof (sc1 U1) as Q1. fold s1 c1 in Q1. pose proof (sc1 U2) as Q2. fold s2 c2 in Q2. pose proof (sc1 o) as Q3.
  pose proof (az_sin U1 U2 V1 V2 o Ho) as AS. pose proof (az_cos U1 U2 V1 V2 o Ho) as AC. fold c2 S in AS. fold T1 S in AC.
  assert (e1 : s1 ^ 2 = 1 - c1 ^ 2) by nra. assert (e2 : s2 ^ 2 = 1 - c2 ^ 2) by nra. assert (el : sin o ^ 2 = 1 - cos o ^ 2) by nra.
  destruct (sg_cs U1 U2 o) as (CG & GR & _). fold s1 s2 c1 c2 sig in CG. fold sig in GR.
  assert (S2 : S ^ 2 = 1 - (s1 * s2 + c1 * c2 * cos o) ^ 2) by (rewrite <- CG; unfold S, aS; fold sig; pose proof (sc1 sig); nra).
  assert (T1e : T1 = c1 * s2 - s1 * c2 * cos o) by reflexivity. assert (T2e : T2 = c1 * s2 * cos o - s1 * c2) by reflexivity.
  set (sa := sin (az U1 U2 o)) in *. set (ca := cos (az U1 U2 o)) in *.
  assert (Xe : x = sa * c1) by (unfold x, xx; fold c1 c2 sig; change (sin sig) with S; rewrite AS; field; lra).
  unfold ev, Lambda12. cbv zeta. destruct (Req_EM_T s1 0) as [Z|_]; [unfold s1 in Z; lra|].
  set (sp2 := if Req_EM_T c2 c1 then sa else sa * c1 / c2).
  set (cp2 := if Req_EM_T c2 c1 then if Req_EM_T (Rabs s2) (- s1) then Rabs ca else sqrt ((ca * c1) ^ 2 + (s1 - s2) * (s1 + s2)) / c2 else sqrt ((ca * c1) ^ 2 + (c2 - c1) * (c1 + c2)) / c2).
  assert (RAD : (ca * c1) ^ 2 + (c2 ^ 2 - c1 ^ 2) = (T2 * c2 / S) ^ 2).
  { rewrite AC. apply Rmult_eq_reg_r with (S ^ 2); [|apply pow_nonzero; lra]. transitivity ((T1 * c1) ^ 2 + S ^ 2 * (c2 ^ 2 - c1 ^ 2)); [field; lra|]. transitivity ((T2 * c2) ^ 2); [|field; lra]. rewrite S2, T1e, T2e. ring [e1 e2 el]. }
  assert (GN : 0 <= T2 * c2 / S) by (apply Rmult_le_pos; [nra|left; now apply Rinv_0_lt_compat]).
  assert (E2c : cp2 = T2 / S).
  { unfold cp2. destruct (Req_EM_T c2 c1) as [CE|_].
    - destruct (Req_EM_T (Rabs s2) (- s1)) as [A|A].
      + rewrite CE in RAD, GN. assert (Q : Rabs (ca * c1) = T2 * c1 / S). { rewrite <- (Rabs_right (T2 * c1 / S)) by lra. apply Rsqr_eq_abs_0. rewrite !Rsqr_pow2. rewrite <- RAD. ring. }
        rewrite Rabs_mult, (Rabs_right c1) in Q by lra. apply Rmult_eq_reg_r with c1; [|lra]. rewrite Q. field; lra.
      + replace ((s1 - s2) * (s1 + s2)) with (c2 ^ 2 - c1 ^ 2) by (clear - e1 e2; lra). rewrite RAD, sqrt_pow2 by exact GN. field; repeat split; lra.
    - replace ((c2 - c1) * (c1 + c2)) with (c2 ^ 2 - c1 ^ 2) by ring. rewrite RAD, sqrt_pow2 by exact GN. field; repeat split; lra. }
  set (K := kp U1 U2 o). assert (KE : K = s1 ^ 2 + (ca * c1) ^ 2).
  { unfold K, kp. fold x. rewrite Xe. pose proof (sc1 (az U1 U2 o)) as Q. fold sa ca in Q. rewrite !Rpow_mult_distr. replace (ca ^ 2) with (1 - sa ^ 2) by nra. rewrite e1. ring. }
  assert (KP : 0 < K). { rewrite KE. pose proof (pow2_ge_0 (ca * c1)). assert (0 < s1 ^ 2) by (unfold s1; nra). lra. }
  set (r := sqrt K). assert (rp : 0 < r) by (apply sqrt_lt_R0; exact KP). assert (rr : r ^ 2 = K) by (apply pow2_sqrt; lra).
  assert (r1 : hypot s1 (ca * c1) = r) by (unfold hypot, r; rewrite KE; reflexivity).
  assert (r2 : hypot s2 (cp2 * c2) = r) by (unfold hypot, r; f_equal; rewrite E2c, KE; replace (T2 / S * c2) with (T2 * c2 / S) by (field; lra); rewrite <- RAD; lra).
  assert (H0 : hypot ca (sa * s1) ^ 2 = K). { rewrite hypot_pow2, KE. pose proof (sc1 (az U1 U2 o)) as Q. fold sa ca in Q. rewrite !Rpow_mult_distr. replace (sa ^ 2) with (1 - ca ^ 2) by nra. rewrite e1. ring. }
  unfold norm2. fold sp2 cp2. rewrite r1, r2. cbv beta iota zeta. cbn [l_lam12 l_dlam12]. rewrite H0.
  set (ss1 := s1 / r). set (cs1 := ca * c1 / r). set (ss2 := s2 / r). set (cs2 := cp2 * c2 / r).
  assert (M1 : r * ss1 = s1) by (unfold ss1; field; lra). assert (M2 : r * cs1 = ca * c1) by (unfold cs1; field; lra). assert (M3 : r * ss2 = s2) by (unfold ss2; field; lra). assert (M4 : r * cs2 = cp2 * c2) by (unfold cs2; field; lra).
  assert (RE : S ^ 2 * K = S ^ 2 * s1 ^ 2 + T1 ^ 2 * c1 ^ 2) by (rewrite KE, AC; field; lra).
  assert (SS : cs1 * ss2 - ss1 * cs2 = S).
  { unfold cs1, ss2, ss1, cs2. rewrite E2c, AC. transitivity ((T1 * c1 * s2 - s1 * c2 * T2) / (S * r ^ 2)); [field; lra|]. rewrite rr. replace (T1 * c1 * s2 - s1 * c2 * T2) with (S ^ 2 * K); [field; lra|]. rewrite RE, S2, T1e, T2e. ring [e1 e2 el]. }
  assert (CS : cs1 * cs2 + ss1 * ss2 = cos sig).
  { unfold cs1, ss2, ss1, cs2. rewrite E2c, AC, CG. transitivity ((T1 * c1 * (T2 * c2) + S ^ 2 * (s1 * s2)) / (S ^ 2 * r ^ 2)); [field; lra|]. rewrite rr. replace (T1 * c1 * (T2 * c2) + S ^ 2 * (s1 * s2)) with ((s1 * s2 + c1 * c2 * cos o) * (S ^ 2 * K)); [field; lra|]. rewrite RE, S2, T1e, T2e. ring [e1 e2 el]. }
  rewrite SS, CS. replace 0.0 with 0 by lra. rewrite (Rmax_right 0 S) by lra.
  assert (SI : atan2 S (cos sig) = sig) by (apply (atan2_unique _ _ sig 1); [lra|pose proof PI_RGT_0; lra|unfold S, aS; fold sig; ring|ring]). rewrite SI.
  assert (SO : ca * c1 * (sa * c1 * s2) - sa * c1 * s1 * (cp2 * c2) = c1 * c2 * K * sin o).
  { rewrite <- M4, <- M2, <- M3, <- M1. replace (r * cs1 * (sa * c1 * (r * ss2)) - sa * c1 * (r * ss1) * (r * cs2)) with (sa * c1 * r ^ 2 * (cs1 * ss2 - ss1 * cs2)) by ring. rewrite SS, rr, AS. field. lra. }
  assert (CO : ca * c1 * (cp2 * c2) + sa * c1 * s1 * (sa * c1 * s2) = c1 * c2 * K * cos o).
  { rewrite E2c, AC, AS. apply Rmult_eq_reg_r with (S ^ 2); [|apply pow_nonzero; lra]. transitivity (T1 * c1 * (T2 * c2) + (c2 * sin o * c1) ^ 2 * (s1 * s2)); [field; lra|]. replace (c1 * c2 * K * cos o * S ^ 2) with (c1 * c2 * cos o * (S ^ 2 * K)) by ring. rewrite RE, S2, T1e, T2e. ring [e1 e2 el]. }
  assert (So : 0 < sin o) by (apply sin_gt_0; lra).
  rewrite SO, CO. rewrite Rmax_right by (apply Rmult_le_pos; [|lra]; repeat apply Rmult_le_pos; lra).
  rewrite (atan2_unique _ _ (o - lam) (c1 * c2 * K)); [|repeat apply Rmult_lt_0_compat; lra|apply Rabs_def2 in Hl; lra|rewrite sin_minus; ring|rewrite cos_minus; ring].
  assert (Kp0 : 0 <= K * ep2) by (apply Rmult_le_pos; lra).
  assert (EE : eps_of (K * gd_ep2 g) = fe ep2 U1 U2 o) by (rewrite eps_alt by exact Kp0; reflexivity). rewrite EE.
  set (e := fe ep2 U1 U2 o).
  assert (N1' : ss1 ^ 2 + cs1 ^ 2 = 1). { apply Rmult_eq_reg_l with (r ^ 2); [|apply pow_nonzero; lra]. rewrite Rmult_plus_distr_l, <- !Rpow_mult_distr, M1, M2, rr, KE. ring. }
  destruct (unit_polar ss1 cs1 N1') as [T1s T1c]. set (t1 := atan2 ss1 cs1) in *.
  assert (T2' : sin (t1 + sig) = ss2 /\ cos (t1 + sig) = cs2).
  { rewrite sin_plus, cos_plus, T1s, T1c, <- CS. change (sin sig) with S. rewrite <- SS. split; [transitivity ((ss1 ^ 2 + cs1 ^ 2) * ss2); [ring|rewrite N1'; ring]|transitivity ((ss1 ^ 2 + cs1 ^ 2) * cs2); [ring|rewrite N1'; ring]]. }
  destruct T2' as [T2s T2c].
  assert (CM : cos (2 * t1 + sig) = cs1 * cs2 - ss1 * ss2) by (replace (2 * t1 + sig) with (t1 + (t1 + sig)) by ring; rewrite cos_plus, T1s, T1c, T2s, T2c; reflexivity).
  assert (UE : e * cos (2 * t1 + sig) = fu ep2 U1 U2 o).
  { unfold e, fe, fu, qq. fold K. rewrite CM. fold sig. rewrite <- CS. replace (2 * sin U1 * sin U2) with (2 * s1 * s2) by reflexivity. rewrite <- M1, <- M3. rewrite <- rr at 1. rewrite <- rr at 2. ring. }
  pose proof (lser_diff g e t1 sig O) as LD. rewrite UE in LD. fold n in LD. split.
  - rewrite <- Xe. unfold hcor. fold x sig e f. apply f_equal2; [reflexivity|].
    transitivity (- f * x * (lser g e (t1 + sig) - lser g e t1)); [unfold lser; rewrite T2s, T2c, T1s, T1c; ring|]. rewrite LD. ring.
  - assert (CPn : cp2 <> 0) by (rewrite E2c; apply Rgt_not_eq; apply Rdiv_lt_0_compat; lra). destruct (Req_EM_T cp2 0) as [|_]; [contradiction|].
    unfold Lengths_reduced. cbv zeta. cbn [fst]. unfold nC1. rewrite !series_lin. replace 1.0 with 1 by lra.
    set (J := (A1m1f e - A2m1f e) * sig + _).
    assert (EJ : J = (dser e (t1 + sig) - d2ser e (t1 + sig)) - (dser e t1 - d2ser e t1)) by (unfold J, dser, d2ser, nC1, nC2; rewrite T2s, T2c, T1s, T1c; ring).
    assert (Ee : 0 <= e <= n).
    { unfold e. rewrite <- EE. destruct (eps_props (K * gd_ep2 g) Kp0) as [X _]. split; [apply X|]. unfold n. rewrite <- (eps_n g O). apply eps_incr. split; [exact Kp0|].
      assert (K <= 1) by (unfold K, kp; pose proof (pow2_ge_0 (xx U1 U2 o)); lra). fold ep2. rewrite <- (Rmult_1_l ep2) at 2. apply Rmult_le_compat_r; lra. }
    pose proof (jser_close e t1 (t1 + sig) ltac:(lra)) as JC. rewrite <- EJ in JC. replace (t1 + sig - t1) with sig in JC by ring. rewrite (Rabs_right sig) in JC by lra.
    replace (2 * e * (t1 + sig) - e * sin (2 * (t1 + sig)) - (2 * e * t1 - e * sin (2 * t1))) with (2 * e * (sig - sin sig * cos (2 * t1 + sig))) in JC.
    2: { assert (X1 : sin (2 * (t1 + sig)) = sin ((2 * t1 + sig) + sig)) by (f_equal; ring). assert (X2 : sin (2 * t1) = sin ((2 * t1 + sig) - sig)) by (f_equal; ring). rewrite X1, X2, sin_plus, sin_minus. ring. }
    change (sin sig) with S in JC.
    assert (SG : S <= sig) by (unfold S, aS; fold sig; destruct (Req_dec sig 0) as [Z|]; [rewrite Z, sin_0; lra|left; apply sin_lt_x; lra]).
    set (q := sig / S) in *. assert (Qs : sig = q * S) by (unfold q; field; lra). assert (Q1' : 1 <= q) by (unfold q; apply Rmult_le_reg_r with S; [lra|]; unfold Rdiv; rewrite Rmult_assoc, Rinv_l; lra).
    assert (JB : Rabs J <= S * (2 * n * (q + 1) + 7 * n ^ 2 * q)).
    { pose proof (COS_bound (2 * t1 + sig)) as CB. set (kk := cos (2 * t1 + sig)) in *. clear - JC CB Ee Sp Qs Q1' SG Hn. apply Rabs_le_between in JC.
      assert (A1 : 0 <= sig - S * kk <= S * (q + 1)) by (split; nra). assert (A2 : 2 * e * (sig - S * kk) <= 2 * n * (S * (q + 1))) by (apply Rmult_le_compat; lra). assert (A3 : 0 <= 2 * e * (sig - S * kk)) by (apply Rmult_le_pos; lra).
      assert (e2 : 0 <= e ^ 2 <= n ^ 2) by (split; [apply pow2_ge_0|apply pow_incr; lra]). assert (A4 : 0 <= 7 * e ^ 2 * sig <= 7 * n ^ 2 * (q * S)) by (rewrite Qs; split; [apply Rmult_le_pos; nra|apply Rmult_le_compat; nra]). apply Rabs_le. lra. }
    clear JC EJ. clearbody J.
    assert (D1 : 1 <= dn1 /\ dn1 ^ 2 = 1 + ep2 * s1 ^ 2).
    { apply dn_facts. apply Hp. }
    assert (D2 : 1 <= dn2 /\ dn2 ^ 2 = 1 + ep2 * s2 ^ 2).
    { apply dn_facts. apply Hp. }
    destruct D1 as [D1a D1b]. destruct D2 as [D2a D2b].
    pose proof Hf as Hf'. fold f in Hf'. assert (f1p : 99 / 100 <= gd_f1 g <= 1) by (rewrite F1; fold f; lra). assert (f1e : gd_f1 g = 1 - f) by exact F1.
    assert (FD : 1 - f <= gd_f1 g * dn1 <= 1) by (apply (fd_facts f _ ep2 s1); [lra|exact F1|exact FP|lra|split; [apply pow2_ge_0|unfold s1; pose proof (sc1 U1); pose proof (pow2_ge_0 (cos U1)); lra]|exact D1a|exact D1b]).
    assert (DD : Rabs (dn2 - dn1) <= ep2 / 2 * S).
    { assert (X : (dn2 - dn1) * (dn2 + dn1) = ep2 * (K * (sin (t1 + (t1 + sig)) * S))).
      { transitivity (ep2 * (s2 ^ 2 - s1 ^ 2)); [transitivity (dn2 ^ 2 - dn1 ^ 2); [ring|rewrite D1b, D2b; ring]|]. rewrite <- M1, <- M3, !Rpow_mult_distr, rr, sin_plus, T1s, T1c, T2s, T2c, <- SS. 
        replace (ss1 * cs2 + cs1 * ss2) with (cs1 * ss2 + ss1 * cs2) by ring. replace ((cs1 * ss2 + ss1 * cs2) * (cs1 * ss2 - ss1 * cs2)) with (cs1 ^ 2 * ss2 ^ 2 - ss1 ^ 2 * cs2 ^ 2) by ring.
        assert (N2' : cs2 ^ 2 = 1 - ss2 ^ 2) by (rewrite <- T2c, <- T2s; pose proof (sc1 (t1 + sig)); lra). rewrite N2'. replace (cs1 ^ 2) with (1 - ss1 ^ 2) by lra. ring. }
      assert (K1 : K <= 1) by (unfold K, kp; pose proof (pow2_ge_0 (xx U1 U2 o)); lra).
      assert (Y : Rabs ((dn2 - dn1) * (dn2 + dn1)) <= ep2 * (1 * (1 * S))). { rewrite X. apply L_vincenty2.Rabs_mul_le; [rewrite Rabs_right; lra|]. apply L_vincenty2.Rabs_mul_le; [rewrite Rabs_right; lra|]. apply L_vincenty2.Rabs_mul_le; [apply L_vincenty2.abs_sin|rewrite Rabs_right; lra]. }
      apply (ddiff_facts dn1 dn2 ep2 S _ D1a D2a (proj1 Hp) (Rlt_le _ _ Sp) (eq_refl _)). rewrite !Rmult_1_l in Y. exact Y. }
    assert (B1 : Rabs cs1 <= 1) by (rewrite <- T1c; apply L_vincenty2.abs_cos). assert (B2 : Rabs cs2 <= 1) by (rewrite <- T2c; apply L_vincenty2.abs_cos). assert (B3 : Rabs ss2 <= 1) by (rewrite <- T2s; apply L_vincenty2.abs_sin).
    assert (DE : (dn2 * (cs1 * ss2) - dn1 * (ss1 * cs2) - cs1 * cs2 * J) * (gd_f1 g / (cp2 * c2)) * aw U1 U2 o - 1 = (gd_f1 g * dn1 - 1) + gd_f1 g * ((dn2 - dn1) * (cs1 * ss2) - cs1 * cs2 * J) / S).
    { unfold aw. fold c2 T2 S. rewrite E2c. transitivity (gd_f1 g * (dn1 * (cs1 * ss2 - ss1 * cs2) + (dn2 - dn1) * (cs1 * ss2) - cs1 * cs2 * J) / S - 1); [field; repeat apply conj; lra|]. rewrite SS. field. lra. }
    rewrite DE. eapply Rle_trans; [apply Rabs_triang|].
    assert (P : Rabs (gd_f1 g * ((dn2 - dn1) * (cs1 * ss2) - cs1 * cs2 * J) / S) <= gd_f1 g * (ep2 / 2) + (2 * n * (q + 1) + 7 * n ^ 2 * q)).
    { unfold Rdiv at 1. rewrite Rabs_mult, Rabs_mult, (Rabs_right (gd_f1 g)), (Rabs_right (/ S)) by (try (left; now apply Rinv_0_lt_compat); lra).
      assert (Y : Rabs ((dn2 - dn1) * (cs1 * ss2) - cs1 * cs2 * J) <= ep2 / 2 * S + S * (2 * n * (q + 1) + 7 * n ^ 2 * q)).
      { unfold Rminus. eapply Rle_trans; [apply Rabs_triang|]. rewrite Rabs_Ropp. apply Rplus_le_compat.
        - replace (ep2 / 2 * S) with (ep2 / 2 * S * (1 * 1)) by ring. apply L_vincenty2.Rabs_mul_le; [exact DD|]. now apply L_vincenty2.Rabs_mul_le.
        - replace (S * (2 * n * (q + 1) + 7 * n ^ 2 * q)) with (1 * 1 * (S * (2 * n * (q + 1) + 7 * n ^ 2 * q))) by ring. apply L_vincenty2.Rabs_mul_le; [now apply L_vincenty2.Rabs_mul_le|exact JB]. }
      apply Rle_trans with (gd_f1 g * (ep2 / 2 * S + S * (2 * n * (q + 1) + 7 * n ^ 2 * q)) * / S).
      - apply Rmult_le_compat_r; [left; now apply Rinv_0_lt_compat|]. apply Rmult_le_compat_l; lra.
      - replace (gd_f1 g * (ep2 / 2 * S + S * (2 * n * (q + 1) + 7 * n ^ 2 * q)) * / S) with (gd_f1 g * (ep2 / 2) + gd_f1 g * (2 * n * (q + 1) + 7 * n ^ 2 * q)) by (field; lra).
        assert (0 <= 2 * n * (q + 1) + 7 * n ^ 2 * q) by (assert (0 <= n ^ 2) by apply pow2_ge_0; assert (0 <= 2 * n * (q + 1)) by (apply Rmult_le_pos; lra); assert (0 <= 7 * n ^ 2 * q) by (apply Rmult_le_pos; lra); lra). assert (gd_f1 g * (2 * n * (q + 1) + 7 * n ^ 2 * q) <= 1 * (2 * n * (q + 1) + 7 * n ^ 2 * q)) by (apply Rmult_le_compat_r; lra). lra. }
    assert (P0 : Rabs (gd_f1 g * dn1 - 1) <= f) by (apply Rabs_le; lra).
    assert (NQ : 2 * n * (q + 1) <= 2 * (100 / 199 * f) * (q + 1)) by (apply Rmult_le_compat_r; lra).
    assert (NQ2 : 7 * n ^ 2 * q <= 7 * (1 / 199 * (100 / 199 * f)) * q). { apply Rmult_le_compat_r; [lra|]. apply Rmult_le_compat_l; [lra|]. replace (n ^ 2) with (n * n) by ring. apply Rmult_le_compat; lra. }
    assert (FQ : 0 <= f * q) by (apply Rmult_le_pos; lra). clear - P P0 NQ NQ2 FQ FE F. lra.
Qed.
End Eq.
