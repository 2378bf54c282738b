(** The Karney inverse solver: general position. *)
From Coq Require Import Reals Lra Lia Psatz.
From Verif Require Import PyMath M_karney L_PyMath L_karney L_karney2 L_karney3 L_karney4 L_karney5 L_karney6 L_karney7 L_karney8 Spec Spec_geodesic L_geodesic5 L_geodesic6 L_geodesic7 L_geodesic8 L_geodesic9 L_geodesic10.
Open Scope R_scope.

(** The point of larger latitude first, in the southern hemisphere; longitudes eastward. *)
Definition far_lat (lat1 lat2 : R) : R := if Rlt_dec (Rabs lat1) (Rabs lat2) then lat2 else lat1.
Definition near_lat (lat1 lat2 : R) : R := if Rlt_dec (Rabs lat1) (Rabs lat2) then lat1 else lat2.
Definition inv_A (lat1 lat2 : R) : R := far_lat lat1 lat2 * lneg (far_lat lat1 lat2).
Definition inv_B (lat1 lat2 : R) : R := near_lat lat1 lat2 * lneg (far_lat lat1 lat2).

Lemma unit_azi s c e n : is_sign e -> is_sign n -> s ^ 2 + c ^ 2 = 1 ->
  sin (radians (atan2d (s * e) (c * n))) = e * s /\ cos (radians (atan2d (s * e) (c * n))) = n * c.
Proof.
  intros He Hn U. rewrite atan2d_eq, rad_deg. assert (U' : (s * e) ^ 2 + (c * n) ^ 2 = 1) by (destruct He as [-> | ->], Hn as [-> | ->]; lra).
  destruct (unit_polar _ _ U') as [-> ->]. split; ring.
Qed.
Lemma sign_back n x : is_sign n -> n * (x * n) = x.
Proof. intros [-> | ->]; ring. Qed.
Lemma inverse_conn g lat1 lon1 lat2 lon2 v : oblate g -> gd_f g <= 1 / 100 -> -90 < lat1 < 90 -> -90 < lat2 < 90 -> (lat1 <> 0 \/ lat2 <> 0) ->
  k_tiny <= cos (radians lat1) -> k_tiny <= cos (radians lat2) ->
  (let A := inv_A lat1 lat2 in let B := inv_B lat1 lat2 in let L := Rabs (AngNormalize (lon2 - lon1)) in
   settles g A B L v \/ (sin (radians L) = 0 /\ 0 <= v /\ canon g A B L = (meridian_dist g A B L, (sin (radians L), cos (radians L)), (0, 1)))) ->
  let '(s, az1, az2) := Inverse g lat1 lon1 lat2 lon2 in
  exists d lx, conn (gd_a g) (gd_b g) (radians lat1) (radians az1) (radians lat2) (radians az2) d lx /\
    Rabs (d - s) <= 80 * gd_b g * gd_n g ^ 7 /\ Rabs (lx - radians (AngNormalize (lon2 - lon1))) <= 208 * gd_n g ^ 7 + v.
Proof.
  intros O Hf H1 H2 NZ T1 T2 V. cbv zeta in V. rewrite Inverse_eq by lra. cbv zeta. set (dl := AngNormalize (lon2 - lon1)) in *.
  assert (Sp : is_sign (lpos dl)) by (destruct (lpos_cases dl) as [-> | ->]; [now left|now right]).
  assert (DL : forall lx, Rabs (lpos dl * lx - radians dl) = Rabs (lx - radians (Rabs dl))).
  { intros lx. rewrite <- (lpos_abs dl). destruct Sp as [-> | ->]; rewrite ?Rmult_1_l; [reflexivity|]. replace (-1 * dl) with (- dl) by ring. rewrite radians_opp. rewrite <- Rabs_Ropp. f_equal. ring. }
  assert (A1 : Rabs lat1 < 90) by (apply Rabs_def1; lra). assert (A2 : Rabs lat2 < 90) by (apply Rabs_def1; lra).
  pose proof O as (_ & _ & _ & _). assert (Hb : 0 < gd_b g <= gd_a g). { pose proof O as (P1 & P2 & P3 & P4 & _). pose proof (oblate_f1 g O). rewrite P4. split; nra. }
  assert (PN : forall x, 0 < Rabs x -> -90 < x < 90 -> k_tiny <= cos (radians x) -> -90 < x * lneg x < 0 /\ k_tiny <= cos (radians (x * lneg x))).
  { intros x X Y K. rewrite lneg_abs. assert (Rabs x < 90) by (apply Rabs_def1; lra). split; [lra|]. rewrite radians_opp, cos_neg. unfold Rabs. destruct (Rcase_abs x); [rewrite radians_opp, cos_neg|]; exact K. }
  assert (AL : forall x y, Rabs (x * lneg y) = Rabs x) by (intros x y; destruct (lneg_cases y) as [-> | ->]; rewrite Rabs_mult, ?Rabs_R1, ?Rabs_Ropp, ?Rabs_R1, ?Rmult_1_r; [reflexivity|]; replace (-1) with (-(1)) by lra; rewrite Rabs_Ropp, Rabs_R1; ring).
  assert (Sn : forall x, is_sign (lneg x)) by (intros x; destruct (lneg_cases x) as [-> | ->]; [now left|now right]).
  unfold inv_A, inv_B, far_lat, near_lat in V. destruct (Rlt_dec (Rabs lat1) (Rabs lat2)) as [S|S].
  - assert (P2 : 0 < Rabs lat2) by (pose proof (Rabs_pos lat1); lra). destruct (PN lat2 P2 H2 T2) as [HA HT].
    pose proof (fun Q => canon_conn g _ _ _ v O Hf HA Q HT V) as C. specialize (C ltac:(rewrite AL, lneg_abs; lra)).
    destruct (canon g (lat2 * lneg lat2) (lat1 * lneg lat2) (Rabs dl)) as [[s [sa1 ca1]] [sa2 ca2]]. cbn [out]. destruct C as (U1 & U2 & d & lx & CN & D1 & D2).
    assert (Sm : is_sign (- lpos dl)) by (destruct Sp as [-> | ->]; [right|left]; lra).
    exists d, (lpos dl * lx). split; [|split; [exact D1|rewrite DL; exact D2]].
    destruct (unit_azi sa2 ca2 (lpos dl) (- lneg lat2) Sp ltac:(destruct (Sn lat2) as [-> | ->]; [right|left]; lra) U2) as [Y1 Y2].
    destruct (unit_azi sa1 ca1 (lpos dl) (- lneg lat2) Sp ltac:(destruct (Sn lat2) as [-> | ->]; [right|left]; lra) U1) as [Z1 Z2].
    rewrite Ropp_mult_distr_r, (Ropp_mult_distr_r ca1).
    apply conn_reverse in CN; [|lra|lra].
    destruct (unit_polar _ _ U1) as [W1 W2]. destruct (unit_polar _ _ U2) as [W3 W4].
    pose proof (conn_mirror (gd_a g) (gd_b g) (- lpos dl) (lneg lat2) _ _ _ _ (radians (atan2d (sa2 * lpos dl) (ca2 * - lneg lat2))) (radians (atan2d (sa1 * lpos dl) (ca1 * - lneg lat2))) _ _ Sm (Sn lat2)
      ltac:(rewrite Y1, neg_sin, W3; ring) ltac:(rewrite Y2, neg_cos, W4; ring) ltac:(rewrite Z1, neg_sin, W1; ring) ltac:(rewrite Z2, neg_cos, W2; ring) CN) as CM.
    replace (lneg lat2 * radians (lat1 * lneg lat2)) with (radians lat1) in CM. 2: { destruct (Sn lat2) as [-> | ->]; unfold radians; field. }
    replace (lneg lat2 * radians (lat2 * lneg lat2)) with (radians lat2) in CM. 2: { destruct (Sn lat2) as [-> | ->]; unfold radians; field. }
    replace (- lpos dl * - lx) with (lpos dl * lx) in CM by ring. exact CM.
  - assert (P2 : 0 < Rabs lat1). { destruct (Req_dec lat1 0) as [Q|Q]; [|now apply Rabs_pos_lt]. destruct NZ as [Z|Z]; [contradiction|]. pose proof (Rabs_pos_lt _ Z). lra. } destruct (PN lat1 P2 H1 T1) as [HA HT].
    pose proof (fun Q => canon_conn g _ _ _ v O Hf HA Q HT V) as C. specialize (C ltac:(rewrite AL, lneg_abs; lra)).
    destruct (canon g (lat1 * lneg lat1) (lat2 * lneg lat1) (Rabs dl)) as [[s [sa1 ca1]] [sa2 ca2]]. cbn [out]. destruct C as (U1 & U2 & d & lx & CN & D1 & D2).
    exists d, (lpos dl * lx). split; [|split; [exact D1|rewrite DL; exact D2]].
    destruct (unit_azi sa2 ca2 (lpos dl) (lneg lat1) Sp (Sn lat1) U2) as [Y1 Y2].
    destruct (unit_azi sa1 ca1 (lpos dl) (lneg lat1) Sp (Sn lat1) U1) as [Z1 Z2].
    destruct (unit_polar _ _ U1) as [W1 W2]. destruct (unit_polar _ _ U2) as [W3 W4].
    pose proof (conn_mirror (gd_a g) (gd_b g) (lpos dl) (lneg lat1) _ _ _ _ (radians (atan2d (sa1 * lpos dl) (ca1 * lneg lat1))) (radians (atan2d (sa2 * lpos dl) (ca2 * lneg lat1))) _ _ Sp (Sn lat1)
      ltac:(rewrite Z1, W1; ring) ltac:(rewrite Z2, W2; ring) ltac:(rewrite Y1, W3; ring) ltac:(rewrite Y2, W4; ring) CN) as CM.
    replace (lneg lat1 * radians (lat1 * lneg lat1)) with (radians lat1) in CM. 2: { destruct (Sn lat1) as [-> | ->]; unfold radians; field. }
    replace (lneg lat1 * radians (lat2 * lneg lat1)) with (radians lat2) in CM. 2: { destruct (Sn lat1) as [-> | ->]; unfold radians; field. }
    exact CM.
Qed.
