(** The distance geodesic_inverse returns: bounds that hold whatever the iteration did. *)
From Coq Require Import Reals Lra Lia Psatz.
From Coquelicot Require Import Coquelicot.
From Verif Require Import PyMath M_karney L_PyMath L_karney L_karney2 L_karney3 L_karney4 L_karney5 L_karney6 L_karney7 L_karney8 Spec Spec_geodesic L_series1 L_geodesic5 L_geodesic6 L_geodesic7 L_geodesic8 L_geodesic9 L_geodesic10 L_geodesic11.
Open Scope R_scope.

(** A stretch of the distance series. *)
Lemma dser'_upper e c : 0 <= e <= 1 / 50 -> Rabs c <= 1 -> dser' e c <= (1 + e) + 10 * e ^ 7.
Proof.
  intros He Hc. pose proof (dser'_close e c He Hc) as Q. pose proof (dser'_pos e c He Hc) as P. apply Rabs_le_between in Q. apply Rabs_le_between in Hc.
  assert (E7 : 0 <= e ^ 7) by (apply pow_le; lra). set (x := e ^ 7) in *. set (d := dser' e c) in *.
  apply Rnot_lt_le. intros X. assert (d ^ 2 <= (1 + e) ^ 2 + 19 * x) by nra. assert (((1 + e) + 10 * x) ^ 2 < d ^ 2) by nra. nra.
Qed.
Lemma dser_growth e t sg : 0 <= e <= 1 / 50 -> 0 <= sg -> 0 <= dser e (t + sg) - dser e t <= sg * (((1 + e) + 10 * e ^ 7) / (1 - e)).
Proof.
  intros He Hs. destruct (Req_dec sg 0) as [-> |N]; [rewrite Rplus_0_r; lra|].
  destruct (MVT_cor2 (dser e) (fun u => dser' e (cos (2 * u)) / (1 - e)) t (t + sg) ltac:(lra)) as (c & E & _).
  { intros u _. apply is_derive_Reals. apply dser_derive. lra. }
  replace (t + sg - t) with sg in E by ring. rewrite E. pose proof (cos_abs1 (2 * c)) as B. pose proof (dser'_pos e _ He B) as P. pose proof (dser'_upper e _ He B) as U.
  assert (I : 0 < / (1 - e)) by (apply Rinv_0_lt_compat; lra). unfold Rdiv. split; [apply Rmult_le_pos; [nra|lra]|]. rewrite (Rmult_comm _ sg). apply Rmult_le_compat_l; [lra|]. apply Rmult_le_compat_r; lra.
Qed.
Lemma growth_mono e n : 0 <= e <= n -> n <= 1 / 50 -> ((1 + e) + 10 * e ^ 7) / (1 - e) <= ((1 + n) + 10 * n ^ 7) / (1 - n).
Proof.
  intros He Hn. assert (E7 : e ^ 7 <= n ^ 7) by (apply pow_incr; lra). assert (0 <= e ^ 7) by (apply pow_le; lra). unfold Rdiv. apply Rmult_le_compat; [lra|left; apply Rinv_0_lt_compat; lra|lra|apply Rinv_le_contravar; lra].
Qed.

(** hence a length of at most half the equator (and a bit) *)
Lemma arc_length g e t1 sg : oblate g -> gd_f g <= 1 / 100 -> 0 <= sg <= PI -> 0 <= e <= gd_n g ->
  0 <= gd_b g * ((1 + A1m1f e) * (sg + (SinCosSeries true (sin (t1 + sg)) (cos (t1 + sg)) (arr (C1f e)) nC1 - SinCosSeries true (sin t1) (cos t1) (arr (C1f e)) nC1))) <= PI * gd_a g * (1 + 10 * gd_n g ^ 7).
Proof.
  intros O Hf S E.
  pose proof O as (Hab & F & F1 & B & Ep & En & _). pose proof (oblate_f1 g O) as Ff. set (f := gd_f g) in *. set (n := gd_n g) in *.
  assert (Hn : 0 <= n <= 1 / 150). { rewrite En. fold f. split; [apply Rmult_le_pos; [lra|left; apply Rinv_0_lt_compat; lra]|]. apply Rmult_le_reg_r with (2 - f); [lra|]. replace (f / (2 - f) * (2 - f)) with f by (field; lra). lra. }
  match goal with |- 0 <= gd_b g * ?x <= _ => replace x with (dser e (t1 + sg) - dser e t1) by (unfold dser; ring) end.
  destruct (dser_growth e t1 sg ltac:(lra) ltac:(lra)) as [G0 G1]. pose proof (growth_mono e n ltac:(lra) ltac:(lra)) as GM.
  assert (Hb : 0 < gd_b g) by (rewrite B; apply Rmult_lt_0_compat; lra). assert (N7 : 0 <= n ^ 7) by (apply pow_le; lra).
  assert (AB : gd_b g * (((1 + n) + 10 * n ^ 7) / (1 - n)) <= gd_a g * (1 + 10 * n ^ 7)).
  { assert (Q : gd_b g = gd_a g * ((1 - n) / (1 + n))). { rewrite B, F1. rewrite En. fold f. field. lra. } rewrite Q.
    replace (gd_a g * ((1 - n) / (1 + n)) * ((1 + n + 10 * n ^ 7) / (1 - n))) with (gd_a g * (1 + 10 * n ^ 7 / (1 + n))) by (field; lra). apply Rmult_le_compat_l; [lra|]. apply Rplus_le_compat_l.
    apply Rmult_le_reg_r with (1 + n); [lra|]. replace (10 * n ^ 7 / (1 + n) * (1 + n)) with (10 * n ^ 7) by (field; lra). nra. }
  split; [apply Rmult_le_pos; lra|]. pose proof PI_RGT_0 as PP.
  assert (K : 0 <= ((1 + n) + 10 * n ^ 7) / (1 - n)) by (apply Rmult_le_pos; [lra|left; apply Rinv_0_lt_compat; lra]).
  apply Rle_trans with (gd_b g * (PI * (((1 + n) + 10 * n ^ 7) / (1 - n)))).
  - apply Rmult_le_compat_l; [lra|]. apply Rle_trans with (1 := G1). apply Rle_trans with (sg * (((1 + n) + 10 * n ^ 7) / (1 - n))); [apply Rmult_le_compat_l; lra|apply Rmult_le_compat_r; lra].
  - replace (gd_b g * (PI * ((1 + n + 10 * n ^ 7) / (1 - n)))) with (PI * (gd_b g * ((1 + n + 10 * n ^ 7) / (1 - n)))) by ring. rewrite Rmult_assoc. apply Rmult_le_compat_l; [lra|exact AB].
Qed.
(** ** Each evaluation of the longitude equation describes an arc of 0 to pi *)
Section Arc.
Variables (g : Geodesic) (U1 U2 sa ca lam dn1 dn2 : R) (diffp : bool).
Hypothesis O : oblate g.
Hypothesis Hf : gd_f g <= 1 / 100.
Hypothesis C1 : 0 < cos U1.
Hypothesis C2 : 0 < cos U2.
Hypothesis Su : sa ^ 2 + ca ^ 2 = 1.
Hypothesis Sp : 0 <= sa.
Hypothesis Neq : sin U1 < 0.
Hypothesis Le : Rabs (sin U2) <= - sin U1.
Let L := Lambda12 g (sin U1) (cos U1) dn1 (sin U2) (cos U2) dn2 sa ca (sin lam) (cos lam) diffp.
Lemma lambda_arc : 0 <= l_sig12 L <= PI /\ 0 <= l_eps L <= gd_n g /\ exists t1, l_ssig1 L = sin t1 /\ l_csig1 L = cos t1 /\ l_ssig2 L = sin (t1 + l_sig12 L) /\ l_csig2 L = cos (t1 + l_sig12 L).
Proof.
  pose proof O as (Hab & F & F1 & B & Ep & En & _). pose proof (oblate_f1 g O) as Ff. set (f := gd_f g) in *.
  destruct (unit_polar sa ca Su) as [AS AC]. set (al := atan2 sa ca) in *.
  unfold L, Lambda12. cbv zeta. destruct (Req_EM_T (sin U1) 0) as [X|_]; [lra|].
  pose proof (sc1 U1) as SU1. pose proof (sc1 U2) as SU2.
  set (ca0 := hypot ca (sa * sin U1)) in *. pose proof (hypot_pow2 ca (sa * sin U1)) as C0s. fold ca0 in C0s.
  assert (C0 : 0 < ca0). { apply hypot_pos. destruct (Req_dec ca 0) as [Z|Z]; [right|left; exact Z]. rewrite Z in Su. assert (sa <> 0) by nra. apply Rmult_integral_contrapositive_currified; lra. }
  assert (C0t : ca0 ^ 2 = sin U1 ^ 2 + (ca * cos U1) ^ 2) by (rewrite C0s, !Rpow_mult_distr; nra).
  assert (CC : cos U1 ^ 2 <= cos U2 ^ 2).
  { assert (sin U2 ^ 2 <= sin U1 ^ 2); [|nra]. apply Rabs_le_between in Le. nra. }
  set (sp2 := if Req_EM_T (cos U2) (cos U1) then sa else sa * cos U1 / cos U2).
  set (cp2 := if Req_EM_T (cos U2) (cos U1) then if Req_EM_T (Rabs (sin U2)) (- sin U1) then Rabs ca else sqrt ((ca * cos U1) ^ 2 + (sin U1 - sin U2) * (sin U1 + sin U2)) / cos U2 else sqrt ((ca * cos U1) ^ 2 + (cos U2 - cos U1) * (cos U1 + cos U2)) / cos U2).
  assert (CP2 : 0 <= cp2 /\ (cp2 * cos U2) ^ 2 = (ca * cos U1) ^ 2 + (cos U2 ^ 2 - cos U1 ^ 2)).
  { assert (P0 : 0 <= (ca * cos U1) ^ 2) by apply pow2_ge_0. assert (Ic : 0 < / cos U2) by now apply Rinv_0_lt_compat.
    unfold cp2. destruct (Req_EM_T (cos U2) (cos U1)) as [E|E]; [destruct (Req_EM_T (Rabs (sin U2)) (- sin U1)) as [E'|E']|].
    - split; [apply Rabs_pos|]. rewrite Rpow_mult_distr, pow2_abs, E, Rpow_mult_distr. ring.
    - split; [apply Rmult_le_pos; [apply sqrt_pos|lra]|]. replace (sqrt ((ca * cos U1) ^ 2 + (sin U1 - sin U2) * (sin U1 + sin U2)) / cos U2 * cos U2) with (sqrt ((ca * cos U1) ^ 2 + (sin U1 - sin U2) * (sin U1 + sin U2))) by (field; lra).
      rewrite pow2_sqrt by nra. nra.
    - split; [apply Rmult_le_pos; [apply sqrt_pos|lra]|]. replace (sqrt ((ca * cos U1) ^ 2 + (cos U2 - cos U1) * (cos U1 + cos U2)) / cos U2 * cos U2) with (sqrt ((ca * cos U1) ^ 2 + (cos U2 - cos U1) * (cos U1 + cos U2))) by (field; lra).
      rewrite pow2_sqrt by nra. ring. }
  destruct CP2 as [CPp CP2].
  assert (H2t : ca0 ^ 2 = sin U2 ^ 2 + (cp2 * cos U2) ^ 2) by (rewrite CP2, C0t; nra).
  unfold norm2. assert (HY1 : hypot (sin U1) (ca * cos U1) = ca0) by (apply hypot_uniq; nra). assert (HY2 : hypot (sin U2) (cp2 * cos U2) = ca0) by (apply hypot_uniq; nra).
  fold sp2 cp2. rewrite HY1, HY2. cbn [l_lam12 l_salp2 l_calp2 l_sig12 l_ssig1 l_csig1 l_ssig2 l_csig2 l_eps].
  set (ss1 := sin U1 / ca0). set (cs1 := ca * cos U1 / ca0). set (ss2 := sin U2 / ca0). set (cs2 := cp2 * cos U2 / ca0).
  assert (N1 : ss1 ^ 2 + cs1 ^ 2 = 1). { unfold ss1, cs1. replace ((sin U1 / ca0) ^ 2 + (ca * cos U1 / ca0) ^ 2) with ((sin U1 ^ 2 + (ca * cos U1) ^ 2) / ca0 ^ 2) by (field; lra). rewrite <- C0t. field. lra. }
  assert (N2 : ss2 ^ 2 + cs2 ^ 2 = 1). { unfold ss2, cs2. replace ((sin U2 / ca0) ^ 2 + (cp2 * cos U2 / ca0) ^ 2) with ((sin U2 ^ 2 + (cp2 * cos U2) ^ 2) / ca0 ^ 2) by (field; lra). rewrite <- H2t. field. lra. }
  assert (SG0 : 0 <= cs1 * ss2 - ss1 * cs2).
  { replace (cs1 * ss2 - ss1 * cs2) with ((ca * cos U1 * sin U2 - sin U1 * (cp2 * cos U2)) / ca0 ^ 2) by (unfold cs1, ss1, cs2, ss2; field; lra).
    apply Rmult_le_pos; [|left; apply Rinv_0_lt_compat; apply pow_lt; lra]. set (x := ca * cos U1) in *. set (y := cp2 * cos U2) in *.
    assert (Y0 : 0 <= y) by (unfold y; nra). assert (XY : Rabs x <= y) by (apply Rsqr_incr_0_var; [rewrite <- Rsqr_abs, !Rsqr_pow2; lra|exact Y0]).
    assert (Rabs (x * sin U2) <= y * - sin U1) by (rewrite Rabs_mult; apply Rmult_le_compat; try apply Rabs_pos; assumption).
    pose proof (Rle_abs (- (x * sin U2))) as Q. rewrite Rabs_Ropp in Q. lra. }
  replace 0.0 with 0 by lra. rewrite (Rmax_right 0 (cs1 * ss2 - ss1 * cs2)) by exact SG0.
  assert (NG : (cs1 * ss2 - ss1 * cs2) ^ 2 + (cs1 * cs2 + ss1 * ss2) ^ 2 = 1) by (transitivity ((ss1 ^ 2 + cs1 ^ 2) * (ss2 ^ 2 + cs2 ^ 2)); [ring|rewrite N1, N2; ring]).
  destruct (unit_polar _ _ NG) as [GS GC]. pose proof (atan2_range (cs1 * ss2 - ss1 * cs2) (cs1 * cs2 + ss1 * ss2)) as GR. set (sg := atan2 (cs1 * ss2 - ss1 * cs2) (cs1 * cs2 + ss1 * ss2)) in *.
  assert (sg0 : 0 <= sg <= PI). { split; [|lra]. apply Rnot_lt_le; intros X. pose proof (sin_lt_0_var sg ltac:(lra) X). lra. }
  assert (SA0 : (sa * cos U1) ^ 2 = 1 - ca0 ^ 2) by (rewrite C0t, !Rpow_mult_distr; nra).
  set (k2 := ca0 ^ 2 * gd_ep2 g).
  assert (Ep0 : 0 <= gd_ep2 g). { rewrite Ep. fold f. apply Rmult_le_pos; [nra|]. left. apply Rinv_0_lt_compat. nra. }
  assert (C01 : ca0 ^ 2 <= 1) by (pose proof (pow2_ge_0 (sa * cos U1)); lra).
  assert (Hk : 0 <= k2) by (pose proof (pow2_ge_0 ca0); unfold k2; apply Rmult_le_pos; lra). assert (He : eps_of k2 <= gd_n g).
  { rewrite <- (eps_n g O). apply eps_incr. split; [exact Hk|]. unfold k2. nra. }
  destruct (eps_props k2 Hk) as [He0 _]. split; [exact sg0|]. split; [lra|].
  destruct (unit_polar ss1 cs1 N1) as [T1s T1c]. exists (atan2 ss1 cs1). split; [now symmetry|]. split; [now symmetry|]. rewrite sin_plus, cos_plus, T1s, T1c, GS, GC.
  split; [transitivity ((ss1 ^ 2 + cs1 ^ 2) * ss2); [rewrite N1; ring|ring]|transitivity ((ss1 ^ 2 + cs1 ^ 2) * cs2); [rewrite N1; ring|ring]].
Qed.
Lemma lambda_length : 0 <= gd_b g * ((1 + A1m1f (l_eps L)) * (l_sig12 L + (SinCosSeries true (l_ssig2 L) (l_csig2 L) (arr (C1f (l_eps L))) nC1 - SinCosSeries true (l_ssig1 L) (l_csig1 L) (arr (C1f (l_eps L))) nC1))) <=
  PI * gd_a g * (1 + 10 * gd_n g ^ 7).
Proof.
  destruct lambda_arc as (S & E & t1 & T1 & T2 & T3 & T4). rewrite T1, T2, T3, T4. set (e := l_eps L) in *. set (sg := l_sig12 L) in *.
  exact (arc_length g e t1 sg O Hf S E).
Qed.
End Arc.

(** The search returns an evaluation of the equation, at a unit azimuth. *)
Lemma loop_eval eval fuel s last : st_ok s -> (fuel = O -> exists sa ca dp, 0 < sa /\ sa ^ 2 + ca ^ 2 = 1 /\ last = eval sa ca dp) ->
  let '(_, _, r) := newton_loop fuel eval s last in exists sa ca dp, 0 < sa /\ sa ^ 2 + ca ^ 2 = 1 /\ r = eval sa ca dp.
Proof.
  revert s last. induction fuel as [|k IH]; intros s last H HL; [cbn; auto|]. cbn [newton_loop]. cbv zeta. clear HL.
  set (e := Nat.ltb _ _). set (Lm := eval _ _ _).
  assert (Q : exists sa ca dp, 0 < sa /\ sa ^ 2 + ca ^ 2 = 1 /\ Lm = eval sa ca dp) by (destruct H as (A & B & _); exists (n_salp1 s), (n_calp1 s), e; auto).
  destruct (orb _ _); [exact Q|]. pose proof (bracket_ok e (l_lam12 Lm) s H) as H'. destruct (newton _ _ _ _) as [s'|] eqn:E.
  - apply IH; [now apply (newton_ok _ _ _ _ _ H' E)|auto].
  - pose proof (bisect_ok _ H') as H2. destruct (bisect _) as [s' st]. cbn [fst] in H2. destruct st; [exact Q|]. apply IH; auto.
Qed.
Lemma search_eval g A B L : let '(_, _, r) := search g A B L in exists sa ca dp, 0 < sa /\ sa ^ 2 + ca ^ 2 = 1 /\ r = equation g A B L sa ca dp.
Proof.
  unfold search. destruct (reduced g A) as [sb1 cb1]. destruct (reduced g B) as [sb2 cb2]. cbv zeta.
  match goal with |- context [InverseStart ?a ?b ?c ?d ?e ?f ?h ?i ?j ?k] => pose proof (start_ok a b c d e f h i j k) as P; destruct (InverseStart a b c d e f h i j k) as [sa ca] end.
  destruct P as [P Q]. apply loop_eval; [|intros X; discriminate X]. pose proof tiny_pos. repeat split; assumption.
Qed.
Lemma canon_length g A B L : oblate g -> gd_f g <= 1 / 100 -> -90 < A < 0 -> Rabs B <= - A -> k_tiny <= cos (radians A) ->
  0 <= dist_of (canon g A B L) <= PI * gd_a g * (1 + 10 * gd_n g ^ 7).
Proof.
  intros O Hf HA HB T. destruct (canon_setup g A B O HA HB T) as (U1 & U2 & E1 & E2 & C1 & C2 & R1 & R2 & N1 & Le & Fx).
  destruct (canon_form g A B L O HA HB T) as [M|(Z & M)].
  - pose proof (search_eval g A B L) as SE. destruct (search g A B L) as [[sa ca] r]. rewrite E1, E2 in M. rewrite M. cbn [dist_of fst].
    destruct SE as (sa' & ca' & dp & P & U & Er). unfold equation in Er. rewrite E1, E2 in Er. cbv zeta in Er. rewrite Fx in Er. rewrite Er.
    apply (lambda_length g U1 U2 sa' ca' (radians L)); try assumption. lra.
  - rewrite M. cbn [dist_of fst]. assert (Q : sin (radians L) ^ 2 + cos (radians L) ^ 2 = 1) by (pose proof (sc1 (radians L)); lra).
    pose proof (lambda_length g U1 U2 (sin (radians L)) (cos (radians L)) (radians L) 1 1 false O Hf C1 C2 Q ltac:(lra) N1 Le) as G.
    pose proof (lambda_meridian g U1 U2 (radians L) 1 1 false O Z C1 C2 N1 Le) as P. cbv zeta in G, P.
    destruct P as (P1 & P2 & P3 & P4 & P5 & P6 & P7 & P8 & P9). rewrite P4, P5, P6, P7, P8, P9 in G. unfold meridian_dist. rewrite E1, E2. exact G.
Qed.
(** Both points on the equator. *)
Lemma equator_length g k sa ca dn1 dn2 sl cl dp : oblate g -> gd_f g <= 1 / 100 -> sa ^ 2 + ca ^ 2 = 1 -> k_tiny ^ 2 <= 1 ->
  k = Lambda12 g 0 1 dn1 0 1 dn2 sa ca sl cl dp ->
  0 <= gd_b g * ((1 + A1m1f (l_eps k)) * (l_sig12 k + (SinCosSeries true (l_ssig2 k) (l_csig2 k) (arr (C1f (l_eps k))) nC1 - SinCosSeries true (l_ssig1 k) (l_csig1 k) (arr (C1f (l_eps k))) nC1))) <=
  PI * gd_a g * (1 + 10 * gd_n g ^ 7).
Proof.
  intros O Hf Su TT K. pose proof O as (Hab & F & F1 & B & Ep & En & _). pose proof (oblate_f1 g O) as Ff. set (f := gd_f g) in *. set (n := gd_n g) in *.
  assert (ARC : 0 <= l_sig12 k <= PI /\ 0 <= l_eps k <= n /\ exists t1, l_ssig1 k = sin t1 /\ l_csig1 k = cos t1 /\ l_ssig2 k = sin (t1 + l_sig12 k) /\ l_csig2 k = cos (t1 + l_sig12 k)).
  { rewrite K. unfold Lambda12. cbv zeta. destruct (Req_EM_T 0 0) as [_|X]; [|contradiction]. destruct (Req_EM_T 1 1) as [_|X]; [|contradiction]. destruct (Req_EM_T (Rabs 0) (- 0)) as [_|X]; [|rewrite Rabs_R0 in X; lra].
    set (c := if Req_EM_T ca 0 then - k_tiny else ca). assert (CN : c <> 0 /\ c ^ 2 <= 1). { unfold c. pose proof tiny_pos. destruct (Req_EM_T ca 0); [split; [lra|]; replace ((- k_tiny) ^ 2) with (k_tiny ^ 2) by ring; exact TT|]. split; [assumption|nra]. }
    destruct CN as [CN C1]. unfold norm2. rewrite !Rmult_1_r, !Rmult_0_r. rewrite !(hypot_comm 0), !hypot_x0, Rabs_Rabsolu. cbn [l_sig12 l_ssig1 l_csig1 l_ssig2 l_csig2 l_eps].
    assert (AP : 0 < Rabs c) by now apply Rabs_pos_lt. replace (0 / Rabs c) with 0 by (field; lra). replace (Rabs c / Rabs c) with 1 by (field; lra). rewrite !Rmult_0_r, !Rmult_0_l, !Rmult_1_r, Rminus_0_r, Rplus_0_r.
    replace 0.0 with 0 by lra. rewrite (Rmax_left 0 0) by lra.
    assert (Ep0 : 0 <= gd_ep2 g). { rewrite Ep. fold f. apply Rmult_le_pos; [nra|]. left. apply Rinv_0_lt_compat. nra. }
    assert (AC : Rabs c ^ 2 <= 1) by (rewrite pow2_abs; exact C1).
    assert (Hk : 0 <= Rabs c ^ 2 * gd_ep2 g) by (pose proof (pow2_ge_0 (Rabs c)); apply Rmult_le_pos; lra).
    assert (He : eps_of (Rabs c ^ 2 * gd_ep2 g) <= n). { unfold n. rewrite <- (eps_n g O). apply eps_incr. split; [exact Hk|]. nra. }
    destruct (eps_props _ Hk) as [He0 _]. pose proof PI_RGT_0 as PP.
    assert (SP : c / Rabs c = 1 \/ c / Rabs c = -1). { unfold Rabs in *. destruct (Rcase_abs c); [right|left]; field; lra. }
    destruct SP as [-> | ->].
    - rewrite (atan2_unique 0 1 0 1) by (rewrite ?sin_0, ?cos_0; lra). split; [lra|]. split; [lra|]. exists 0. rewrite Rplus_0_r, sin_0, cos_0. auto.
    - rewrite (atan2_unique 0 (-1) PI 1) by (rewrite ?sin_PI, ?cos_PI; lra). split; [lra|]. split; [lra|]. exists (- PI). rewrite sin_neg, cos_neg, sin_PI, cos_PI. replace (- PI + PI) with 0 by ring. rewrite sin_0, cos_0. repeat split; ring. }
  destruct ARC as (S & E & t1 & T1 & T2 & T3 & T4). rewrite T1, T2, T3, T4. set (e := l_eps k) in *. set (sg := l_sig12 k) in *. apply (arc_length g e t1 sg O Hf S E).
Qed.
Lemma canon_length_equator g L : oblate g -> gd_f g <= 1 / 100 -> 0 <= L <= 180 -> 0 <= dist_of (canon g 0 0 L) <= PI * gd_a g * (1 + 10 * gd_n g ^ 7).
Proof.
  intros O Hf HL. pose proof O as (Hab & F & F1 & B & Ep & En & _). assert (T1 : k_tiny <= 1). { rewrite tiny_eq. apply Rmult_le_reg_r with (2 ^ 26); [apply pow_lt; lra|]. rewrite Rinv_l by (apply pow_nonzero; lra). rewrite Rmult_1_l. apply pow_R1_Rle. lra. }
  pose proof tiny_pos as TP. assert (TT : k_tiny ^ 2 <= 1) by nra.
  unfold canon, reduced. rewrite sincosd_eq. replace (radians 0) with 0 by (unfold radians; field). rewrite sin_0, cos_0, Rmult_0_l. unfold norm2. rewrite hypot_comm, hypot_x0, Rabs_R1.
  replace (0 / 1) with 0 by field. replace (1 / 1) with 1 by field. rewrite Rmax_right by exact T1. unfold sbet_fix. destruct (Rlt_dec 1 (- 0)); [lra|]. unfold Inverse_core. cbv zeta.
  destruct (Req_EM_T 0 (-90)); [lra|]. destruct (Req_EM_T 0 0) as [_|X]; [|contradiction].
  match goal with |- context [InverseStart ?a ?b ?c ?d ?e ?f ?h ?i ?j ?k] => pose proof (start_ok a b c d e f h i j k) as P; destruct (InverseStart a b c d e f h i j k) as [s0 c0] end.
  match goal with |- context [newton_loop ?a ?b ?c ?d] => pose proof (loop_eval b a c d) as LE; destruct (newton_loop a b c d) as [[sa ca] r] end.
  destruct P as [P Q]. specialize (LE ltac:(repeat split; assumption) ltac:(intros X; discriminate X)). cbv beta in LE. destruct LE as (sa' & ca' & dp & P' & U & Er).
  pose proof (equator_length g r sa' ca' _ _ _ _ _ O Hf U TT Er) as GR. clear Er.
  assert (EQ : 0 <= gd_a g * radians L <= PI * gd_a g * (1 + 10 * gd_n g ^ 7)).
  { pose proof PI_RGT_0 as PP. assert (R : 0 <= radians L <= PI) by (unfold radians; split; [apply Rmult_le_pos; [nra|lra]|nra]). split; [nra|]. assert (N7 : 0 <= gd_n g ^ 7). { apply pow_le. rewrite En. apply Rmult_le_pos; [lra|left; apply Rinv_0_lt_compat; lra]. }
    assert (0 <= PI * gd_a g) by nra. apply Rle_trans with (PI * gd_a g); [nra|]. nra. }
  assert (MER : sin (radians L) = 0 -> forall dn1 dn2, 0 <= fst (fst (fst (fst (Lengths_out g (gd_n g) (atan2 (Rmax 0.0 (cos (radians L) * 1 * 0 - 0 * (1.0 * 1))) (cos (radians L) * 1 * (1.0 * 1) + 0 * 0)) 0 (cos (radians L) * 1) dn1 0 (1.0 * 1) dn2 1 1)))) * gd_b g <= PI * gd_a g * (1 + 10 * gd_n g ^ 7)).
  { intros Z dn1 dn2. unfold Lengths_out. cbv zeta. cbn [fst]. replace 1.0 with 1 by lra. replace 0.0 with 0 by lra. rewrite !Rmult_1_r, Rmult_0_r, Rmult_0_l, Rminus_0_r, Rplus_0_r, (Rmax_left 0 0) by lra.
    pose proof PI_RGT_0 as PP. assert (N0 : 0 <= gd_n g) by (rewrite En; apply Rmult_le_pos; [lra|left; apply Rinv_0_lt_compat; lra]).
    assert (SP : cos (radians L) = 1 \/ cos (radians L) = -1). { pose proof (sc1 (radians L)) as X. rewrite Z in X. assert (X' : (cos (radians L) - 1) * (cos (radians L) + 1) = 0) by lra. apply Rmult_integral in X'. lra. }
    assert (AR : exists t1 sg, 0 <= sg <= PI /\ 0 = sin t1 /\ cos (radians L) = cos t1 /\ 0 = sin (t1 + sg) /\ 1 = cos (t1 + sg) /\ atan2 0 (cos (radians L)) = sg).
    { destruct SP as [-> | ->].
      - exists 0, 0. rewrite (atan2_unique 0 1 0 1) by (rewrite ?sin_0, ?cos_0; lra). rewrite Rplus_0_r, sin_0, cos_0. repeat split; lra.
      - exists (- PI), PI. rewrite (atan2_unique 0 (-1) PI 1) by (rewrite ?sin_PI, ?cos_PI; lra). rewrite sin_neg, cos_neg, sin_PI, cos_PI. replace (- PI + PI) with 0 by ring. rewrite sin_0, cos_0. repeat split; lra. }
    destruct AR as (t1 & sg & S & A1 & A2 & A3 & A4 & A5). rewrite A5. pose proof (arc_length g (gd_n g) t1 sg O Hf S ltac:(lra)) as AL. rewrite <- A1, <- A3, <- A4, <- A2 in AL. rewrite (Rmult_comm _ (gd_b g)). exact AL. }
  assert (FIN : forall b : bool, 0 <= dist_of (if b then (gd_a g * radians L, (1.0, 0.0), (1.0, 0.0)) else let '(s12x, _, _, _, _) :=
          Lengths_out g (l_eps r) (l_sig12 r) (l_ssig1 r) (l_csig1 r) (sqrt (1.0 + gd_ep2 g * 0 ^ 2)) (l_ssig2 r) (l_csig2 r) (sqrt (1.0 + gd_ep2 g * 0 ^ 2)) 1 1 in
        (s12x * gd_b g, (sa, ca), (l_salp2 r, l_calp2 r))) <= PI * gd_a g * (1 + 10 * gd_n g ^ 7)).
  { intros b. destruct b; [exact EQ|]. unfold Lengths_out. cbv zeta. unfold dist_of. cbn [fst]. replace 1.0 with 1 by lra. rewrite (Rmult_comm _ (gd_b g)). exact GR. }
  destruct (Req_EM_T (sin (radians L)) 0) as [Z|Z]; [|apply FIN].
  specialize (MER Z (sqrt (1.0 + gd_ep2 g * 0 ^ 2)) (sqrt (1.0 + gd_ep2 g * 0 ^ 2))).
  destruct (Lengths_out g (gd_n g) _ _ _ _ _ _ _ _ _) as [[[[s12x m12x] u1] u2] u3]. cbn [fst] in MER.
  match goal with |- context [if ?c then Some _ else None] => destruct c end; [exact MER|apply FIN].
Qed.
