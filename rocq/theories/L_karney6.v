(** The Karney inverse solver: reduction to the canonical problem, symmetries. *)
From Coq Require Import Lia Psatz.
From Verif Require Import PyMath L_PyMath M_ellipsoid M_time M_karney Spec L_karney L_karney2 L_karney3 L_karney4 L_karney5.
From Verif Require L_ecef L_vincenty L_vincenty3 L_vincenty4 L_ell.
Open Scope R_scope.

(** Canonical problem: latitudes A <= 0, |B| <= -A, longitude difference L >= 0 (degrees). *)
Definition sbet_fix (sbet1 cbet1 sbet2 cbet2 : R) : R :=
  if Rlt_dec cbet1 (- sbet1) then
    if Req_EM_T cbet2 cbet1 then (if Rlt_dec sbet2 0 then sbet1 else - sbet1) else sbet2
  else sbet2.
Definition canon (g : Geodesic) (A B L : R) : R * (R * R) * (R * R) :=
  let '(sbet1, cbet1) := reduced g A in
  let '(sbet2, cbet2) := reduced g B in
  Inverse_core g A sbet1 cbet1 (sbet_fix sbet1 cbet1 sbet2 cbet2) cbet2 L (180 - L) (radians L) (sin (radians L)) (cos (radians L)).
Definition dist_of (r : R * (R * R) * (R * R)) : R := fst (fst r).
Definition sg (b : bool) : R := if b then 1 else -1.
Definition lneg (x : R) : R := if Rlt_dec x 0 then 1 else -1.
Definition lpos (x : R) : R := if Rle_dec 0 x then 1 else -1.

Lemma lneg_abs x : x * lneg x = - Rabs x.
Proof. unfold lneg, Rabs. destruct (Rlt_dec x 0), (Rcase_abs x); lra. Qed.
Lemma lpos_abs x : lpos x * x = Rabs x.
Proof. unfold lpos, Rabs. destruct (Rle_dec 0 x), (Rcase_abs x); lra. Qed.

Lemma lam_pair L : 0 <= L <= 180 ->
  (if Rlt_dec 90 L then let '(s, c) := sincosd (180 - L) in (s, - c) else sincosd L) = (sin (radians L), cos (radians L)).
Proof.
  intros H. destruct (Rlt_dec 90 L); rewrite sincosd_eq; [|reflexivity].
  replace (radians (180 - L)) with (PI - radians L) by (unfold radians; field). rewrite Rtrigo_facts.sin_pi_minus, Rtrigo_facts.cos_pi_minus, Ropp_involutive. reflexivity.
Qed.

(** Reassembly of the answer. *)
Definition out (swap : bool) (ls la : R) (r : R * (R * R) * (R * R)) : R * R * R :=
  let '(s, (salp1, calp1), (salp2, calp2)) := r in
  if swap then (s, atan2d (salp2 * ls) (- (calp2 * la)), atan2d (salp1 * ls) (- (calp1 * la)))
  else (s, atan2d (salp1 * ls) (calp1 * la), atan2d (salp2 * ls) (calp2 * la)).
Lemma Inverse_eq g lat1 lon1 lat2 lon2 : -90 <= lat1 <= 90 ->
  let d := AngNormalize (lon2 - lon1) in
  Inverse g lat1 lon1 lat2 lon2 =
  if Rlt_dec (Rabs lat1) (Rabs lat2)
  then out true (lpos d) (lneg lat2) (canon g (lat2 * lneg lat2) (lat1 * lneg lat2) (Rabs d))
  else out false (lpos d) (lneg lat1) (canon g (lat1 * lneg lat1) (lat2 * lneg lat1) (Rabs d)).
Proof.
  intros H1 d. unfold Inverse. rewrite AngDiff_eq. fold d. replace 1.0 with 1 by lra. replace (-1.0) with (-1) by lra. replace 180.0 with 180 by lra.
  rewrite !AngRound_id. rewrite (AngNormalize_id lat1) by lra. fold (lpos d). rewrite lpos_abs, !Rmult_0_r, !Rminus_0_r.
  assert (HD : 0 <= Rabs d <= 180).
  { pose proof (AngNormalize_range (lon2 - lon1)) as Q. fold d in Q. unfold Rabs. destruct (Rcase_abs d); lra. }
  rewrite (lam_pair _ HD). destruct (Rlt_dec (Rabs lat1) (Rabs lat2)) as [S|S].
  - destruct (Rlt_dec (-1) 0) as [_|X]; [|lra]. fold (lneg lat2). unfold canon.
    destruct (reduced g (lat2 * lneg lat2)) as [sb1 cb1]. destruct (reduced g (lat1 * lneg lat2)) as [sb2 cb2]. fold (sbet_fix sb1 cb1 sb2 cb2).
    destruct (Inverse_core _ _ _ _ _ _ _ _ _ _ _) as [[s [sa1 ca1]] [sa2 ca2]]. unfold out.
    apply f_equal2; [apply f_equal2|]; [reflexivity|f_equal; ring|f_equal; ring].
  - destruct (Rlt_dec 1 0) as [X|_]; [lra|]. fold (lneg lat1). unfold canon.
    destruct (reduced g (lat1 * lneg lat1)) as [sb1 cb1]. destruct (reduced g (lat2 * lneg lat1)) as [sb2 cb2]. fold (sbet_fix sb1 cb1 sb2 cb2).
    destruct (Inverse_core _ _ _ _ _ _ _ _ _ _ _) as [[s [sa1 ca1]] [sa2 ca2]]. unfold out.
    apply f_equal2; [apply f_equal2|]; [reflexivity|f_equal; ring|f_equal; ring].
Qed.
Definition idist (r : R * R * R) : R := fst (fst r).
Lemma out_dist sw ls la r : idist (out sw ls la r) = dist_of r.
Proof. destruct r as [[s [a b]] [c d]]. destruct sw; reflexivity. Qed.

(** Angle differences of the swapped and the mirrored problem. *)
Lemma norm_opp x : AngNormalize (- x) = if Req_EM_T (AngNormalize x) 180 then 180 else - AngNormalize x.
Proof.
  destruct (AngNormalize_congr x) as [k E]. destruct (AngNormalize_congr (- x)) as [k' E'].
  pose proof (AngNormalize_range x) as B. pose proof (AngNormalize_range (- x)) as B'. destruct (Req_EM_T _ _) as [Q|Q].
  - apply (turn_unique _ _ (k' + k - 1)); [assumption|lra|]. rewrite minus_IZR, plus_IZR, E'. rewrite E in Q. simpl. lra.
  - apply (turn_unique _ _ (k' + k)); [assumption|lra|]. rewrite plus_IZR, E', E. lra.
Qed.
Lemma norm_opp_abs x : Rabs (AngNormalize (- x)) = Rabs (AngNormalize x).
Proof. rewrite norm_opp. destruct (Req_EM_T _ _) as [->|]; [reflexivity|apply Rabs_Ropp]. Qed.

Lemma lneg_eq lat1 lat2 : Rabs lat1 = Rabs lat2 -> (lat1 * lneg lat1 = lat2 * lneg lat2) /\ lat2 * lneg lat1 = lat1 * lneg lat2.
Proof.
  intros E. rewrite !lneg_abs. split; [lra|]. unfold lneg, Rabs in *. destruct (Rlt_dec lat1 0), (Rlt_dec lat2 0), (Rcase_abs lat1), (Rcase_abs lat2); lra.
Qed.
Lemma Inverse_dist_sym g lat1 lon1 lat2 lon2 : -90 <= lat1 <= 90 -> -90 <= lat2 <= 90 ->
  idist (Inverse g lat1 lon1 lat2 lon2) = idist (Inverse g lat2 lon2 lat1 lon1).
Proof.
  intros H1 H2. rewrite (Inverse_eq g lat1 lon1 lat2 lon2 H1), (Inverse_eq g lat2 lon2 lat1 lon1 H2). cbv zeta.
  replace (lon1 - lon2) with (- (lon2 - lon1)) by ring. rewrite norm_opp_abs.
  destruct (Rlt_dec (Rabs lat1) (Rabs lat2)), (Rlt_dec (Rabs lat2) (Rabs lat1)); rewrite ?out_dist; try lra; try reflexivity.
  destruct (lneg_eq lat1 lat2 ltac:(lra)) as [-> ->]. reflexivity.
Qed.
(** Swapping the end points reverses the course: when the longitudes are not exactly
    180 apart and the latitudes differ in size, azimuth i of one is the reverse of
    azimuth j of the other. *)
Lemma atan2d_reverse y x : (y <> 0 \/ x <> 0) -> exists k : Z, atan2d (- y) (- x) = atan2d y x + 180 + IZR k * 360.
Proof.
  intros N. rewrite !atan2d_eq. assert (hp : 0 < hypot x y) by (apply hypot_pos; tauto).
  pose proof (atan2_range y x) as B. pose proof PI_RGT_0.
  pose proof (hypot_cos_atan2 y x) as C. pose proof (hypot_sin_atan2 y x) as S. set (t := atan2 y x) in *.
  destruct (Rle_dec t 0) as [T|T].
  - exists 0%Z. replace (atan2 (- y) (- x)) with (t + PI).
    + rewrite degrees_plus, degrees_PI. simpl. ring.
    + symmetry. apply (atan2_unique _ _ _ (hypot x y)); [exact hp|lra|rewrite neg_sin; lra|rewrite neg_cos; lra].
  - exists (-1)%Z. replace (atan2 (- y) (- x)) with (t - PI).
    + unfold Rminus. rewrite degrees_plus. replace (degrees (- PI)) with (-180) by (unfold degrees; field; lra). simpl. ring.
    + symmetry. apply (atan2_unique _ _ _ (hypot x y)); [exact hp|lra| |].
      * rewrite sin_minus, cos_PI, sin_PI. lra.
      * rewrite cos_minus, cos_PI, sin_PI. lra.
Qed.
Lemma lpos_opp d : d <> 0 -> lpos (- d) = - lpos d.
Proof. intros N. unfold lpos. destruct (Rle_dec 0 d), (Rle_dec 0 (- d)); lra. Qed.
Lemma lneg_opp d : d <> 0 -> lneg (- d) = - lneg d.
Proof. intros N. unfold lneg. destruct (Rlt_dec d 0), (Rlt_dec (- d) 0); lra. Qed.
Lemma lpos_cases d : lpos d = 1 \/ lpos d = -1.
Proof. unfold lpos. destruct (Rle_dec 0 d); auto. Qed.
Lemma lneg_cases d : lneg d = 1 \/ lneg d = -1.
Proof. unfold lneg. destruct (Rlt_dec d 0); auto. Qed.

(** Longitude shifts. *)
Lemma Inverse_lon_shift g lat1 lon1 lat2 lon2 d (k1 k2 : Z) : -90 <= lat1 <= 90 ->
  Inverse g lat1 (lon1 + d + IZR k1 * 360) lat2 (lon2 + d + IZR k2 * 360) = Inverse g lat1 lon1 lat2 lon2.
Proof.
  intros H1. rewrite !Inverse_eq by assumption. cbv zeta.
  replace (lon2 + d + IZR k2 * 360 - (lon1 + d + IZR k1 * 360)) with (lon2 - lon1 + IZR (k2 - k1) * 360) by (rewrite minus_IZR; ring).
  rewrite AngNormalize_shift. reflexivity.
Qed.
(** East-west mirror. *)
Lemma Inverse_ew_dist g lat1 lon1 lat2 lon2 : -90 <= lat1 <= 90 ->
  idist (Inverse g lat1 (- lon1) lat2 (- lon2)) = idist (Inverse g lat1 lon1 lat2 lon2).
Proof.
  intros H1. rewrite !Inverse_eq by assumption. cbv zeta. replace (- lon2 - - lon1) with (- (lon2 - lon1)) by ring.
  rewrite norm_opp_abs. destruct (Rlt_dec _ _); now rewrite !out_dist.
Qed.
Lemma atan2d_mirror y x : y <> 0 -> atan2d (- y) x = - atan2d y x.
Proof.
  intros N. rewrite !atan2d_eq. assert (hp : 0 < hypot x y) by (apply hypot_pos; now right).
  pose proof (atan2_range y x) as B. pose proof PI_RGT_0.
  pose proof (hypot_cos_atan2 y x) as C. pose proof (hypot_sin_atan2 y x) as S. set (t := atan2 y x) in *.
  assert (T : t <> PI) by (intros Q; rewrite Q, sin_PI in S; lra).
  replace (atan2 (- y) x) with (- t); [unfold degrees, Rdiv; ring|]. symmetry.
  apply (atan2_unique _ _ _ (hypot x y)); [exact hp|lra|rewrite sin_neg; lra|rewrite cos_neg; lra].
Qed.
Definition iaz1 (r : R * R * R) : R := snd (fst r).
Definition iaz2 (r : R * R * R) : R := snd r.
Lemma Inverse_ew_azi g lat1 lon1 lat2 lon2 : -90 <= lat1 <= 90 ->
  0 < Rabs (iaz1 (Inverse g lat1 lon1 lat2 lon2)) < 180 -> 0 < Rabs (iaz2 (Inverse g lat1 lon1 lat2 lon2)) < 180 ->
  (AngNormalize (lon2 - lon1) <> 180 /\ AngNormalize (lon2 - lon1) <> 0) ->
  iaz1 (Inverse g lat1 (- lon1) lat2 (- lon2)) = - iaz1 (Inverse g lat1 lon1 lat2 lon2) /\
  iaz2 (Inverse g lat1 (- lon1) lat2 (- lon2)) = - iaz2 (Inverse g lat1 lon1 lat2 lon2).
Proof.
  intros H1 A1 A2 [N1 N0]. rewrite !Inverse_eq in * by assumption. cbv zeta in *. replace (- lon2 - - lon1) with (- (lon2 - lon1)) by ring.
  rewrite norm_opp. destruct (Req_EM_T _ _) as [|_]; [contradiction|]. rewrite Rabs_Ropp, (lpos_opp _ N0).
  assert (M : forall y x ls, 0 < Rabs (atan2d (y * ls) x) < 180 -> atan2d (y * - ls) x = - atan2d (y * ls) x).
  { intros y x ls Hr. rewrite Ropp_mult_distr_r_reverse. apply atan2d_mirror. intros Z. rewrite Z in Hr. rewrite atan2d_eq in Hr.
    assert (Z2 : atan2 0 x = 0 \/ atan2 0 x = PI).
    { unfold atan2. destruct (Rlt_dec 0 x); [left; unfold Rdiv; rewrite Rmult_0_l; apply atan_0|]. destruct (Rlt_dec x 0).
      - destruct (Rle_dec 0 0); [|lra]. right. unfold Rdiv. rewrite Rmult_0_l, atan_0. ring.
      - destruct (Rlt_dec 0 0); [lra|]. destruct (Rlt_dec 0 0); [lra|]. now left. }
    destruct Z2 as [E|E]; rewrite E in Hr.
    - replace (degrees 0) with 0 in Hr by (unfold degrees, Rdiv; ring). rewrite Rabs_R0 in Hr. lra.
    - rewrite degrees_PI, Rabs_right in Hr; lra. }
  destruct (Rlt_dec _ _); destruct (canon _ _ _ _) as [[s [sa1 ca1]] [sa2 ca2]]; unfold iaz1, iaz2, out in *; cbn [fst snd] in *; split; apply M; assumption.
Qed.
(** North-south mirror. *)
Lemma Inverse_ns_dist g lat1 lon1 lat2 lon2 : -90 <= lat1 <= 90 ->
  idist (Inverse g (- lat1) lon1 (- lat2) lon2) = idist (Inverse g lat1 lon1 lat2 lon2).
Proof.
  intros H1. rewrite !Inverse_eq by lra. cbv zeta. rewrite !Rabs_Ropp.
  assert (Z : forall x, - x * lneg (- x) = x * lneg x) by (intros; rewrite !lneg_abs, Rabs_Ropp; reflexivity).
  destruct (Rlt_dec _ _) as [S|S]; rewrite !out_dist, Z.
  - assert (lat2 <> 0) by (intros ->; rewrite Rabs_R0 in S; pose proof (Rabs_pos lat1); lra). rewrite lneg_opp by assumption.
    now rewrite Rmult_opp_opp.
  - destruct (Req_dec lat1 0) as [E|N].
    + assert (E2 : lat2 = 0). { rewrite E, Rabs_R0 in S. pose proof (Rabs_pos lat2). destruct (Req_dec lat2 0); [assumption|]. pose proof (Rabs_pos_lt lat2). lra. }
      rewrite E, E2, Ropp_0. reflexivity.
    + rewrite lneg_opp by assumption. now rewrite Rmult_opp_opp.
Qed.
