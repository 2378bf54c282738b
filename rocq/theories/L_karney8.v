(** geodesic_inverse on a sphere. *)
From Coq Require Import Lia Psatz.
From Verif Require Import PyMath L_PyMath M_ellipsoid M_time M_karney Spec L_karney L_karney2 L_karney3 L_karney4 L_karney5 L_karney6 L_karney7.
From Verif Require L_ecef L_nvector L_vincenty L_vincenty3 L_vincenty4 L_ell.
Open Scope R_scope.

Lemma sin_lat_mono x y : -90 <= x <= 90 -> -90 <= y <= 90 -> x <= y -> sin (radians x) <= sin (radians y).
Proof.
  intros Hx Hy H. unfold radians. pose proof PI_RGT_0. apply sin_incr_1; try nra.
Qed.
Lemma radians_opp x : radians (- x) = - radians x.
Proof. unfold radians, Rdiv. ring. Qed.
Lemma canon_sphere g A B L : spherical g -> -90 < A <= 0 -> - - A <= B <= - A -> 0 <= L <= 180 -> k_tiny <= cos (radians A) ->
  let sA := sin (radians A) in let cA := cos (radians A) in let sB := sin (radians B) in let cB := cos (radians B) in
  let sl := sin (radians L) in let cl := cos (radians L) in
  let C := gC sA cA sB cB cl in let S := gS sA cA sB cB sl cl in
  exists sa ca sa' ca', canon g A B L = (gd_b g * atan2 S C, (sa, ca), (sa', ca')) /\
    S * sa = cB * sl /\ S * ca = gT1 sA cA sB cB cl /\ S * sa' = cA * sl /\ S * ca' = gT2 sA cA sB cB cl /\
    sa ^ 2 + ca ^ 2 = 1 /\ sa' ^ 2 + ca' ^ 2 = 1 /\ S ^ 2 = 1 - C ^ 2 /\ 0 <= S.
Proof.
  intros Sp HA HB HL T sA cA sB cB sl cl C S. pose proof Sp as (_ & F1 & _). pose proof tiny_pos as TP.
  assert (U1 : sA ^ 2 + cA ^ 2 = 1) by (unfold sA, cA; rewrite <- (sc1 (radians A)); ring).
  assert (U2 : sB ^ 2 + cB ^ 2 = 1) by (unfold sB, cB; rewrite <- (sc1 (radians B)); ring).
  assert (UL : sl ^ 2 + cl ^ 2 = 1) by (unfold sl, cl; rewrite <- (sc1 (radians L)); ring).
  assert (SB1 : sB <= - sA). { unfold sB, sA. rewrite <- sin_neg, <- radians_opp. apply sin_lat_mono; lra. }
  assert (SB2 : sA <= sB) by (apply sin_lat_mono; lra).
  assert (SA0 : sA <= 0). { replace 0 with (sin (radians 0)) by (replace (radians 0) with 0 by (unfold radians, Rdiv; ring); apply sin_0). apply sin_lat_mono; lra. }
  assert (CA : 0 < cA) by (unfold cA; lra).
  assert (CB0 : 0 <= cB). { unfold cB, radians. pose proof PI_RGT_0. apply cos_ge_0; nra. }
  assert (CAB : cA <= cB). { assert (sB ^ 2 <= sA ^ 2) by nra. assert (cA ^ 2 <= cB ^ 2) by lra. apply Rnot_lt_le; intros X; nra. }
  assert (SL : 0 <= sl). { unfold sl, radians. pose proof PI_RGT_0. apply sin_ge_0; nra. }
  unfold canon. rewrite (reduced_sphere g A F1 T), (reduced_sphere g B F1) by (fold cB; unfold cA in CAB; lra). fold sA cA sB cB sl cl.
  assert (FX : sbet_fix sA cA sB cB = sB).
  { unfold sbet_fix. destruct (Rlt_dec cA (- sA)); [|reflexivity]. destruct (Req_EM_T cB cA) as [E|]; [|reflexivity].
    rewrite E in U2. assert (Q : (sB - sA) * (sB + sA) = 0) by (ring_simplify; lra). apply Rmult_integral in Q.
    destruct (Rlt_dec sB 0); lra. }
  rewrite FX.
  destruct (core_sphere sA cA sB cB sl cl U1 U2 UL CA ltac:(lra) SA0 ltac:(lra) SL g A (180 - L) (radians L) Sp ltac:(lra) eq_refl eq_refl) as (sa & ca & sa' & ca' & E & E1 & E2 & E3 & E4 & E5 & E6).
  { unfold radians. pose proof PI_RGT_0. nra. }
  rewrite deg_rad in E. exists sa, ca, sa', ca'. repeat split; try assumption.
  - apply (gS_sq sA cA sB cB sl cl); assumption.
  - apply hypot_nonneg.
Qed.

Lemma atan2_angle S C p q : is_unit p -> is_unit q -> 0 <= S -> S ^ 2 = 1 - C ^ 2 -> C = vdot p q -> atan2 S C = unit_angle p q.
Proof.
  intros P Q S0 SS E. pose proof (L_nvector.angle_range p q P Q) as A. pose proof (L_nvector.cos_angle p q P Q) as Ca.
  pose proof PI_RGT_0. apply (atan2_unique _ _ _ 1); [lra|lra| |rewrite Ca; lra].
  assert (s0 : 0 <= sin (unit_angle p q)) by (apply sin_ge_0; lra). pose proof (sc1 (unit_angle p q)) as SC. rewrite Ca, <- E in SC. nra.
Qed.
Lemma azi_of y x S ls la : (ls = 1 \/ ls = -1) -> (la = 1 \/ la = -1) -> y ^ 2 + x ^ 2 = 1 ->
  S * sin (radians (atan2d (y * ls) (x * la))) = S * y * ls /\ S * cos (radians (atan2d (y * ls) (x * la))) = S * x * la.
Proof.
  intros Hl Ha U. rewrite atan2d_eq, rad_deg.
  assert (h : hypot (x * la) (y * ls) = 1) by (apply hypot_uniq; [lra|]; destruct Hl as [-> | ->], Ha as [-> | ->]; lra).
  pose proof (hypot_cos_atan2 (y * ls) (x * la)) as C. pose proof (hypot_sin_atan2 (y * ls) (x * la)) as Sn. rewrite h, Rmult_1_l in C, Sn.
  rewrite C, Sn. split; ring.
Qed.
Lemma lpos_sin d : lpos d * sin (radians (Rabs d)) = sin (radians d).
Proof.
  unfold lpos, Rabs. destruct (Rle_dec 0 d), (Rcase_abs d); try lra. rewrite radians_opp, sin_neg. lra.
Qed.
Lemma abs_cos d : cos (radians (Rabs d)) = cos (radians d).
Proof. unfold Rabs. destruct (Rcase_abs d); [|reflexivity]. now rewrite radians_opp, cos_neg. Qed.
Lemma lneg_sin x z : (z = 1 \/ z = -1) -> sin (radians (x * z)) = sin (radians x) * z /\ cos (radians (x * z)) = cos (radians x).
Proof.
  intros [-> | ->]; [now rewrite !Rmult_1_r|]. replace (x * -1) with (- x) by ring. rewrite radians_opp, sin_neg, cos_neg. split; ring.
Qed.
(** Directions of departure and arrival. *)
Definition dep_E (U1 l1 U2 l2 : R) : R := cos U2 * sin (l2 - l1).
Definition dep_N (U1 l1 U2 l2 : R) : R := cos U1 * sin U2 - sin U1 * cos U2 * cos (l2 - l1).
Definition arr_E (U1 l1 U2 l2 : R) : R := cos U1 * sin (l2 - l1).
Definition arr_N (U1 l1 U2 l2 : R) : R := cos U1 * sin U2 * cos (l2 - l1) - sin U1 * cos U2.

Lemma Inverse_sphere g lat1 lon1 lat2 lon2 : spherical g -> -90 < lat1 < 90 -> -90 < lat2 < 90 ->
  k_tiny <= cos (radians lat1) -> k_tiny <= cos (radians lat2) ->
  let U1 := radians lat1 in let U2 := radians lat2 in let l1 := radians lon1 in let l2 := radians lon2 in
  let '(d, a1, a2) := Inverse g lat1 lon1 lat2 lon2 in
  d = gd_b g * unit_angle (unit_normal U1 l1) (unit_normal U2 l2) /\
  exists S, 0 <= S /\ S ^ 2 = dep_E U1 l1 U2 l2 ^ 2 + dep_N U1 l1 U2 l2 ^ 2 /\ S = sin (unit_angle (unit_normal U1 l1) (unit_normal U2 l2)) /\
    S * sin (radians a1) = dep_E U1 l1 U2 l2 /\ S * cos (radians a1) = dep_N U1 l1 U2 l2 /\
    S * sin (radians a2) = arr_E U1 l1 U2 l2 /\ S * cos (radians a2) = arr_N U1 l1 U2 l2.
Proof.
  intros Sp H1 H2 T1 T2 U1 U2 l1 l2. rewrite Inverse_eq by lra. cbv zeta. set (d := AngNormalize (lon2 - lon1)).
  assert (SD : sin (radians d) = sin (l2 - l1) /\ cos (radians d) = cos (l2 - l1)).
  { unfold d. destruct (AngNormalize_congr (lon2 - lon1)) as [k ->].
    replace (radians (lon2 - lon1 + IZR k * 360)) with (l2 - l1 + IZR k * (2 * PI)) by (unfold l1, l2, radians; field). now rewrite sin_period_Z, cos_period_Z. }
  destruct SD as [SD CD].
  assert (HD : 0 <= Rabs d <= 180).
  { pose proof (AngNormalize_range (lon2 - lon1)) as Q. fold d in Q. unfold Rabs. destruct (Rcase_abs d); lra. }
  pose proof (L_ecef.unit_normal_unit U1 l1) as P1. pose proof (L_ecef.unit_normal_unit U2 l2) as P2.
  pose proof (lpos_cases d) as LP. pose proof (lpos_sin d) as LS.
  assert (BND : forall x y, -90 < x < 90 -> -90 < y < 90 -> ~ Rabs x < Rabs y -> -90 < x * lneg x <= 0 /\ - - (x * lneg x) <= y * lneg x <= - (x * lneg x)).
  { intros x y Hx Hy N. rewrite lneg_abs. pose proof (Rabs_pos x). assert (Rabs x < 90) by (apply Rabs_def1; lra).
    split; [lra|]. rewrite Ropp_involutive. assert (Q : Rabs (y * lneg x) <= Rabs x).
    { rewrite Rabs_mult. destruct (lneg_cases x) as [-> | ->]; [rewrite Rabs_R1|rewrite (Rabs_left (-1)) by lra]; lra. }
    pose proof (Rle_abs (y * lneg x)). pose proof (Rle_abs (- (y * lneg x))) as Q2. rewrite Rabs_Ropp in Q2. lra. }
  destruct (Rlt_dec (Rabs lat1) (Rabs lat2)) as [Sw|Sw].
  - pose proof (lneg_cases lat2) as LN. destruct (BND lat2 lat1 H2 H1 ltac:(lra)) as [B1 B2].
    destruct (lneg_sin lat2 _ LN) as [E2s E2c]. destruct (lneg_sin lat1 _ LN) as [E1s E1c].
    destruct (canon_sphere g (lat2 * lneg lat2) (lat1 * lneg lat2) (Rabs d) Sp B1 B2 HD) as (sa & ca & sa' & ca' & E & Q1 & Q2 & Q3 & Q4 & V1 & V2 & SS & S0).
    { rewrite E2c. exact T2. }
    rewrite E. clear E. unfold out. rewrite E1s, E1c, E2s, E2c, abs_cos in Q1, Q2, Q3, Q4, SS, S0 |- *. fold U1 U2 in Q1, Q2, Q3, Q4, SS, S0 |- *.
    set (C := gC _ _ _ _ _) in *. set (S := gS _ _ _ _ _ _) in *. set (z := lneg lat2) in *.
    assert (zz : z * z = 1) by (destruct LN as [-> | ->]; ring).
    assert (EC : C = vdot (unit_normal U1 l1) (unit_normal U2 l2)).
    { unfold C, gC. rewrite CD, cos_minus. cbn. ring [zz]. }
    rewrite (atan2_angle S C (unit_normal U1 l1) (unit_normal U2 l2) P1 P2 S0 SS EC). split; [reflexivity|].
    replace (- (ca' * z)) with (ca' * - z) by ring. replace (- (ca * z)) with (ca * - z) by ring.
    destruct (azi_of sa' ca' S (lpos d) (- z) LP ltac:(destruct LN as [-> | ->]; lra) V2) as [A1 A2].
    destruct (azi_of sa ca S (lpos d) (- z) LP ltac:(destruct LN as [-> | ->]; lra) V1) as [A3 A4].
    exists S. split; [exact S0|]. unfold dep_E, dep_N, arr_E, arr_N.
    rewrite A1, A2, A3, A4, Q1, Q2, Q3, Q4. unfold gT1, gT2.
    assert (SL : sin (radians (Rabs d)) * lpos d = sin (l2 - l1)) by (rewrite Rmult_comm, LS; exact SD).
    split; [rewrite SS, EC; cbn -[pow]; rewrite sin_minus, cos_minus; pose proof (sc1 U1); pose proof (sc1 U2); pose proof (sc1 l1); pose proof (sc1 l2)|].
    + assert (e1 : sin U1 ^ 2 = 1 - cos U1 ^ 2) by lra. assert (e2 : sin U2 ^ 2 = 1 - cos U2 ^ 2) by lra.
      assert (e3 : sin l1 ^ 2 = 1 - cos l1 ^ 2) by lra. assert (e4 : sin l2 ^ 2 = 1 - cos l2 ^ 2) by lra. ring [e1 e2 e3 e4].
    + split.
      * pose proof (L_nvector.angle_range _ _ P1 P2) as AR. assert (s0 : 0 <= sin (unit_angle (unit_normal U1 l1) (unit_normal U2 l2))) by (apply sin_ge_0; lra).
        pose proof (sc1 (unit_angle (unit_normal U1 l1) (unit_normal U2 l2))) as SC. rewrite (L_nvector.cos_angle _ _ P1 P2), <- EC in SC. nra.
      * rewrite CD. repeat split.
        -- rewrite <- SL. ring. -- ring [zz]. -- rewrite <- SL; ring. -- ring [zz].
  - pose proof (lneg_cases lat1) as LN. destruct (BND lat1 lat2 H1 H2 Sw) as [B1 B2].
    destruct (lneg_sin lat2 _ LN) as [E2s E2c]. destruct (lneg_sin lat1 _ LN) as [E1s E1c].
    destruct (canon_sphere g (lat1 * lneg lat1) (lat2 * lneg lat1) (Rabs d) Sp B1 B2 HD) as (sa & ca & sa' & ca' & E & Q1 & Q2 & Q3 & Q4 & V1 & V2 & SS & S0).
    { rewrite E1c. exact T1. }
    rewrite E. clear E. unfold out. rewrite E1s, E1c, E2s, E2c, abs_cos in Q1, Q2, Q3, Q4, SS, S0 |- *. fold U1 U2 in Q1, Q2, Q3, Q4, SS, S0 |- *.
    set (C := gC _ _ _ _ _) in *. set (S := gS _ _ _ _ _ _) in *. set (z := lneg lat1) in *.
    assert (zz : z * z = 1) by (destruct LN as [-> | ->]; ring).
    assert (EC : C = vdot (unit_normal U1 l1) (unit_normal U2 l2)).
    { unfold C, gC. rewrite CD, cos_minus. cbn. ring [zz]. }
    rewrite (atan2_angle S C (unit_normal U1 l1) (unit_normal U2 l2) P1 P2 S0 SS EC). split; [reflexivity|].
    destruct (azi_of sa' ca' S (lpos d) z LP LN V2) as [A1 A2].
    destruct (azi_of sa ca S (lpos d) z LP LN V1) as [A3 A4].
    exists S. split; [exact S0|]. unfold dep_E, dep_N, arr_E, arr_N.
    rewrite A1, A2, A3, A4, Q1, Q2, Q3, Q4. unfold gT1, gT2.
    assert (SL : sin (radians (Rabs d)) * lpos d = sin (l2 - l1)) by (rewrite Rmult_comm, LS; exact SD).
    split; [rewrite SS, EC; cbn -[pow]; rewrite sin_minus, cos_minus; pose proof (sc1 U1); pose proof (sc1 U2); pose proof (sc1 l1); pose proof (sc1 l2)|].
    + assert (e1 : sin U1 ^ 2 = 1 - cos U1 ^ 2) by lra. assert (e2 : sin U2 ^ 2 = 1 - cos U2 ^ 2) by lra.
      assert (e3 : sin l1 ^ 2 = 1 - cos l1 ^ 2) by lra. assert (e4 : sin l2 ^ 2 = 1 - cos l2 ^ 2) by lra. ring [e1 e2 e3 e4].
    + split.
      * pose proof (L_nvector.angle_range _ _ P1 P2) as AR. assert (s0 : 0 <= sin (unit_angle (unit_normal U1 l1) (unit_normal U2 l2))) by (apply sin_ge_0; lra).
        pose proof (sc1 (unit_angle (unit_normal U1 l1) (unit_normal U2 l2))) as SC. rewrite (L_nvector.cos_angle _ _ P1 P2), <- EC in SC. nra.
      * rewrite CD. repeat split.
        -- rewrite <- SL. ring. -- ring [zz]. -- rewrite <- SL; ring. -- ring [zz].
Qed.
