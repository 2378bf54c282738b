(** Lemmas on track2, the array counter-examples and euler. *)
From Coq Require Import Lia Psatz.
From Coquelicot Require Import Coquelicot.
From Verif Require Import PyMath L_PyMath M_ellipsoid M_rcurve M_vincenty Spec L_ell L_aer L_nvector L_vincenty L_vincenty2 L_vincenty3 L_vincenty4.
From Verif Require L_lox L_ecef L_rcurve M_haversine.
Open Scope R_scope.

Lemma gc_arclen_angle lat1 lon1 lat2 lon2 : gc_arclen lat1 lon1 lat2 lon2 = unit_angle (unit_normal lat1 lon1) (unit_normal lat2 lon2).
Proof.
  unfold gc_arclen. pose proof (hav_dot lon1 lat1 lon2 lat2) as H. unfold M_haversine.haversine in H.
  assert (S : forall x, sin (x / 2) ^ 2 = (1 - cos x) / 2).
  { intros x. replace (cos x) with (cos (2 * (x / 2))) by (f_equal; field). rewrite cos_2a_sin. field. }
  rewrite !S, H. apply half_angle, unit_dot_range; apply L_ecef.unit_normal_unit.
Qed.
Lemma linspace_cons d n : (2 <= n)%nat -> linspace 0 d n = 0 :: map (fun i => INR i * (d / (INR n - 1))) (seq 1 (n - 1)).
Proof.
  intros H. unfold linspace. destruct n as [|n]; [lia|]. replace (S n - 1)%nat with n by lia. cbn [seq map]. f_equal.
  - cbn [INR]. ring.
  - apply map_ext. intros i. replace (d - 0) with d by ring. ring.
Qed.
Lemma linspace_len d n : List.length (linspace 0 d n) = n.
Proof. unfold linspace. now rewrite map_length, seq_length. Qed.
Lemma INR_gt1 n : (2 <= n)%nat -> 0 < INR n - 1.
Proof. intros H. assert (1 < INR n) by (change 1 with (INR 1); apply lt_INR; lia). lra. Qed.
Lemma linspace_in d n r : 0 <= d -> (2 <= n)%nat -> In r (linspace 0 d n) -> 0 <= r <= d.
Proof.
  intros Hd Hn I. unfold linspace in I. apply in_map_iff in I. destruct I as (i & <- & I). apply in_seq in I.
  pose proof (INR_gt1 n Hn) as P. pose proof (pos_INR i). assert (INR i <= INR n - 1) by (assert (INR i + 1 <= INR n) by (rewrite <- S_INR; apply le_INR; lia); lra).
  replace (0 + INR i * ((d - 0) / (INR n - 1))) with (d * (INR i / (INR n - 1))) by (field; lra).
  assert (0 <= INR i / (INR n - 1) <= 1).
  { split; [apply Rmult_le_pos; [lra|left; apply Rinv_0_lt_compat; lra]|]. apply Rmult_le_reg_r with (INR n - 1); [lra|]. unfold Rdiv. rewrite Rmult_assoc, Rinv_l; lra. }
  nra.
Qed.
Lemma linspace_nth d n i : (2 <= n)%nat -> (i < n)%nat -> nth_error (linspace 0 d n) i = Some (INR i / INR (n - 1) * d).
Proof.
  intros Hn Hi. unfold linspace. rewrite nth_error_map. rewrite (nth_error_nth' _ 0%nat) by (rewrite seq_length; lia). rewrite seq_nth by lia. cbn.
  f_equal. pose proof (INR_gt1 n Hn). rewrite minus_INR by lia. cbn [INR]. field. lra.
Qed.

(** ** Arrays of ranges *)
Lemma ranges_ok fuel lat1 lon1 rngs az ell : Forall (fun r => 0 <= r) rngs -> - (PI/2) <= lat1 <= PI/2 ->
  vreckon_ranges fuel lat1 lon1 (0 :: rngs) az ell =
  (let k := vk ell lat1 az in let bases := map (vbase ell lat1 az) (0 :: rngs) in
   match vreck_loop_array fuel k bases bases with
   | None => None
   | Some l => Some (Ok (Some (map (fun '(sP, s) => vreck_end (flattening (resolve_ellipsoid ell)) lon1 k sP s) l)))
   end).
Proof.
  intros F H. apply out_of_range_false in H. unfold vreckon_ranges. rewrite existsb_Forall.
  2: { constructor; [destruct (Rlt_dec 0 0); [lra|reflexivity]|]. eapply List.Forall_impl; [|exact F]. intros r Hr. cbn. destruct (Rlt_dec r 0); [lra|reflexivity]. }
  rewrite H, resolve_a, resolve_b. cbv zeta. fold (vk ell lat1 az). cbn [map existsb].
  replace (0 / (ell_b ell * r_A (vk ell lat1 az))) with 0 by (unfold Rdiv; ring).
  assert (G : 1 / 10 ^ 12 < Rabs (0 - 2 * PI)).
  { pose proof pi_gt3. rewrite Rabs_left by lra. assert (1 / 10 ^ 12 < 1) by lra. lra. }
  destruct (Rlt_dec (1 / 10 ^ 12) (Rabs (0 - 2 * PI))) as [_|N]; [|contradiction]. cbn [orb].
  replace (vbase ell lat1 az 0) with 0 by (unfold vbase, Rdiv; ring). reflexivity.
Qed.
Lemma loop_array_head0 k : forall n bs ss l, vreck_loop_array n k (0 :: bs) (0 :: ss) = Some l -> exists l', l = (0, 0) :: l'.
Proof.
  induction n as [|n IH]; intros bs ss l E; [discriminate|]. cbn [vreck_loop_array combine map] in E. rewrite vreck_next_0 in E.
  match type of E with (if ?c then _ else _) = _ => destruct c end.
  - eapply IH. exact E.
  - injection E as <-. eexists. reflexivity.
Qed.
Lemma first_gaps k bs : kB_ok k -> gaps_le k bs bs ((2 / 3) ^ 0).
Proof.
  intros H. split; [reflexivity|]. induction bs as [|b bs IH]; [constructor|]. cbn [combine]. constructor; [|exact IH].
  simpl pow. now apply first_gap.
Qed.
Lemma ranges_total fuel lat1 lon1 rngs az ell : ell_ok ell -> ell_a ell ^ 2 <= 2 * ell_b ell ^ 2 -> (71 <= fuel)%nat ->
  Forall (fun r => 0 <= r) rngs -> - (PI/2) <= lat1 <= PI/2 ->
  exists l, vreckon_ranges fuel lat1 lon1 (0 :: rngs) az ell = Some (Ok (Some ((nudge_pole lat1, py_mod lon1 tau) :: l))) /\
    List.length l = List.length rngs /\ Forall (fun '(lat, lon) => - (PI/2) <= lat <= PI/2 /\ 0 <= lon < tau) ((nudge_pole lat1, py_mod lon1 tau) :: l).
Proof.
  intros He H2 Hf F Hl. rewrite (ranges_ok _ _ _ _ _ _ F Hl). cbv zeta. destruct (ell_pos ell He) as [Hb Hab].
  destruct (vreck_init_ok (ell_a ell) (ell_b ell) (flattening (resolve_ellipsoid ell)) (nudge_pole lat1) az Hb Hab H2) as [KB _]. fold (vk ell lat1 az) in KB.
  cbn [map]. replace (vbase ell lat1 az 0) with 0 by (unfold vbase, Rdiv; ring).
  destruct (vreck_loop_array_ends (vk ell lat1 az) KB fuel 0 (0 :: map (vbase ell lat1 az) rngs) (0 :: map (vbase ell lat1 az) rngs) ltac:(lia) ltac:(lia) (first_gaps _ _ KB)) as (l & E & Len & _).
  rewrite E. destruct (loop_array_head0 _ _ _ _ _ E) as [l' ->]. cbn in Len. rewrite map_length in Len. injection Len as Len.
  pose proof (ell_f ell He) as Ef. assert (Fr : 0 <= flattening (resolve_ellipsoid ell) < 1).
  { rewrite Ef. split; [apply Rmult_le_pos; [lra|left; apply Rinv_0_lt_compat; lra]|]. apply Rmult_lt_reg_r with (ell_a ell); [lra|]. unfold Rdiv. rewrite Rmult_assoc, Rinv_l by lra. lra. }
  pose proof (nudge_range _ Hl) as Nr. pose proof ten10.
  cbn [map]. unfold vk. rewrite vreck_end_0 by lra. fold (vk ell lat1 az).
  eexists. split; [reflexivity|]. split; [now rewrite map_length|]. constructor; [split; [lra|apply py_mod_range, tau_pos]|].
  apply List.Forall_map, List.Forall_forall. intros [sP s] _. pose proof (vreck_end_lat_range (flattening (resolve_ellipsoid ell)) lon1 (vk ell lat1 az) sP s ltac:(lra)).
  pose proof (vreck_end_lon_range (flattening (resolve_ellipsoid ell)) lon1 (vk ell lat1 az) sP s). destruct (vreck_end _ _ _ _ _). cbn [fst snd] in *. split; [lra|assumption].
Qed.
Lemma combine_diag {A} (l : list A) : combine l l = map (fun x => (x, x)) l.
Proof. induction l as [|x l IH]; [reflexivity|]. cbn. now rewrite IH. Qed.
Lemma ranges_sphere fuel lat1 lon1 rngs az ell : ell_ok ell -> ell_a ell = ell_b ell -> (1 <= fuel)%nat ->
  Forall (fun r => 0 <= r) rngs -> - (PI/2) <= lat1 <= PI/2 ->
  exists l, vreckon_ranges fuel lat1 lon1 (0 :: rngs) az ell = Some (Ok (Some l)) /\
    Forall2 (fun r '(lat, lon) => unit_normal lat lon = gc_move (nudge_pole lat1) lon1 az (r / ell_a ell) /\
       - (PI/2) <= lat <= PI/2 /\ 0 <= lon < tau) (0 :: rngs) l.
Proof.
  intros H E Hf F Hl. rewrite (ranges_ok _ _ _ _ _ _ F Hl). cbv zeta.
  destruct (vk_sphere ell lat1 az H E Hl) as [s1 K]. cbv zeta in K. set (kk := mkVreck _ _ _ _ _ _ _ _ _) in K. unfold vbase. rewrite K.
  replace (r_A kk) with 1 by reflexivity. rewrite Rmult_1_r, <- E, (sphere_f ell H E). clear F.
  generalize (0 :: rngs). intros rs. destruct fuel as [|n]; [lia|]. cbn [vreck_loop_array].
  set (bs := map _ rs). assert (NX : map (fun '(b, s) => vreck_next kk b s) (combine bs bs) = bs).
  { rewrite combine_diag, map_map. transitivity (map (fun x : R => x) bs); [|apply map_id]. apply map_ext. intros b. now apply vreck_next_sphere. }
  rewrite NX, existsb_Forall.
  2: { clear. induction bs as [|x r IH]; [constructor|]. cbn [combine]. constructor; [|exact IH]. rewrite no_gap. destruct (Rlt_dec _ 0) as [X|_]; [pose proof e12; lra|reflexivity]. }
  eexists. split; [reflexivity|]. rewrite combine_diag. unfold bs. rewrite !map_map. clear NX bs.
  induction rs as [|r rs IH]; [constructor|]. cbn [map]. constructor; [|exact IH].
  pose proof (vreck_end_sphere (nudge_pole lat1) lon1 az (r / ell_a ell) s1 (1 - cos (nudge_pole lat1) * sin az * (cos (nudge_pole lat1) * sin az)) 1 0) as V. fold kk in V.
  pose proof (vreck_end_lat_range 0 lon1 kk (r / ell_a ell) (r / ell_a ell) ltac:(lra)) as R1. pose proof (vreck_end_lon_range 0 lon1 kk (r / ell_a ell) (r / ell_a ell)) as R2.
  destruct (vreck_end _ _ _ _ _) as [la lo]. cbn [fst snd] in R1, R2. split; [exact V|]. split; [lra|exact R2].
Qed.
Lemma gc_move_dot U l az s t : vdot (gc_move U l az s) (gc_move U l az t) = cos (t - s).
Proof.
  unfold gc_move. cbn. rewrite cos_minus. pose proof (sc1 U) as A. pose proof (sc1 l) as B. pose proof (sc1 az) as C.
  set (cs := cos s). set (ss := sin s). set (ct := cos t). set (st := sin t).
  set (cU := cos U) in *. set (sU := sin U) in *. set (cl := cos l) in *. set (sl := sin l) in *. set (ca := cos az) in *. set (sa := sin az) in *.
  transitivity (cs * ct * (cU * cU * (sl * sl + cl * cl) + sU * sU) + (cs * st + ss * ct) * (sU * cU * ca * (1 - (sl * sl + cl * cl)))
    + ss * st * (sU * sU * (ca * ca) * (sl * sl + cl * cl) + cU * cU * (ca * ca) + sa * sa * (sl * sl + cl * cl))); [ring|].
  rewrite B. replace (cU * cU * 1 + sU * sU) with (sU * sU + cU * cU) by ring. rewrite A.
  replace (sU * sU * (ca * ca) * 1 + cU * cU * (ca * ca) + sa * sa * 1) with ((sU * sU + cU * cU) * (ca * ca) + sa * sa) by ring. rewrite A.
  replace (1 * (ca * ca) + sa * sa) with (sa * sa + ca * ca) by ring. rewrite C. ring.
Qed.
Lemma gc_move_0 U l az : gc_move U l az 0 = unit_normal U l.
Proof. unfold gc_move. rewrite cos_0, sin_0. unfold unit_normal. cbn. apply f_equal2; [apply f_equal2|]; ring. Qed.

(** ** The two-element array examples *)
Definition ex_coincident : list (R * R * R * R) := [(0, 0, 0, 0); (0, 0, 0, 90)].
Definition ex_antipodal : list (R * R * R * R) := [(0, 0, 0, 1798 / 10); (0, 0, 0, 1798 / 10)].
Lemma nudge_0 : nudge_pole 0 = 0.
Proof. apply nudge_id. rewrite Rabs_R0. pose proof ten10. pose proof pi_gt3. lra. Qed.
Lemma vU_0 ell deg : vU ell deg 0 = 0.
Proof. unfold vU. rewrite rad_in_0, nudge_0. apply reduced_0. Qed.
Lemma lon_gap_0 x : 0 <= x <= PI -> lon_gap 0 x = x.
Proof. intros H. rewrite lon_gap_wrap, Rminus_0_r, L_lox.wrapdist_small by (rewrite Rabs_right; lra). apply Rabs_right; lra. Qed.
Lemma q0 deg : - quarter deg <= 0 <= quarter deg.
Proof. pose proof PI_RGT_0. destruct deg; cbn; lra. Qed.
(** Scalar vdist along the equator. *)
Lemma vdist_equator L ell deg lon1 lon2 : ell_ok ell -> ell_a ell <= 2 * ell_b ell ->
  L = lon_gap (rad_in deg lon1) (rad_in deg lon2) -> 0 < L -> L < PI * (ell_b ell / ell_a ell) ->
  exists d az, vdist 0 lon1 0 lon2 ell deg = Ok (d, az) /\ Rabs (d - ell_a ell * L) <= ell_a ell * (1 / 10 ^ 12) /\
    rad_in deg az = (if Rlt_dec (sin (rad_in deg lon2 - rad_in deg lon1)) 0 then 3 * (PI/2) else PI/2).
Proof.
  intros H Hab EL HL HP. destruct (ell_pos ell H) as [Hb Hba]. pose proof (ell_f ell H) as Ef.
  set (f := flattening (resolve_ellipsoid ell)) in *.
  assert (F1 : 1 - f = ell_b ell / ell_a ell) by (rewrite Ef; field; lra).
  assert (Fr : 0 <= f <= 1/2).
  { rewrite Ef. split; [apply Rmult_le_pos; [lra|left; apply Rinv_0_lt_compat; lra]|]. apply Rmult_le_reg_r with (ell_a ell); [lra|]. unfold Rdiv. rewrite Rmult_assoc, Rinv_l by lra. lra. }
  rewrite (vdist_ok 0 lon1 0 lon2 ell deg (q0 deg) (q0 deg)). cbv zeta. fold f. rewrite <- EL, vU_0.
  destruct (vdist_loop_equator f L Fr HL ltac:(rewrite F1; exact HP) 50 0 L (0,0,0)) as (l' & l'' & c & E & B1 & B2 & B3); [lia|lia|lra| |simpl; nra|].
  { apply Rmult_le_reg_r with (1 - f); [lra|]. unfold Rdiv. rewrite Rmult_assoc, Rinv_l by lra. nra. }
  rewrite E. cbn [fst snd]. rewrite vdist_length_equator. do 2 eexists. split; [reflexivity|]. split.
  - replace (ell_b ell * l' - ell_a ell * L) with (ell_a ell * (l' * (1 - f) - L)) by (rewrite F1; field; lra).
    rewrite Rabs_mult, (Rabs_right (ell_a ell)) by lra. apply Rmult_le_compat_l; [lra|exact B3].
  - rewrite rad_in_deg_out, vdist_azimuth_eq. unfold v_signed. rewrite (Rabs_right l'') by lra.
    assert (S : 0 < sin l'') by (apply sin_gt_0; lra). pose proof (sin_gap (rad_in deg lon1) (rad_in deg lon2)) as SG. rewrite <- EL in SG.
    assert (LP : L < PI) by lra. assert (SL : 0 < sin L) by (apply sin_gt_0; lra). set (sd := sin (rad_in deg lon2 - rad_in deg lon1)) in *.
    assert (Sg : sign (sin l'') = 1) by (unfold sign; destruct (Rlt_dec (sin l'') 0); [lra|]; destruct (Rlt_dec 0 (sin l'')); lra).
    rewrite Sg, Rmult_1_r. assert (SD : sign sd < 0 <-> sd < 0) by (unfold sign; destruct (Rlt_dec sd 0); [lra|]; destruct (Rlt_dec 0 sd); lra).
    pose proof PI_RGT_0. rewrite sin_0, cos_0. destruct (Rlt_dec (sign sd) 0) as [A|A]; destruct (Rlt_dec sd 0) as [B|B]; try (exfalso; tauto).
    + rewrite sin_neg. replace (1 * - sin l'') with (sin l'' * sin (- (PI/2))) by (rewrite sin_neg, sin_PI2; ring).
      replace (1 * 0 - 0 * 1 * cos (- l'')) with (sin l'' * cos (- (PI/2))) by (rewrite cos_neg, cos_PI2; ring).
      rewrite atan2_polar by lra. rewrite <- (py_mod_plus _ tau 1 tau_pos). apply py_mod_small || idtac. unfold tau. rewrite py_mod_small; lra.
    + replace (1 * sin l'') with (sin l'' * sin (PI/2)) by (rewrite sin_PI2; ring).
      replace (1 * 0 - 0 * 1 * cos l'') with (sin l'' * cos (PI/2)) by (rewrite cos_PI2; ring).
      rewrite atan2_polar by lra. apply py_mod_small. unfold tau. lra.
Qed.
Lemma loop_array_S n f lanes lambs last : vdist_loop_array (S n) f lanes lambs last =
  (let r := map (vdist_step f (any_sin0 lanes lambs)) (combine lanes lambs) in
      if existsb (fun l => if Rlt_dec PI l then true else false) (map fst r) then (inr tt, map snd r)
      else if existsb (fun '(l', l) => if Rlt_dec (1 / 10 ^ 12) (Rabs (l' - l)) then true else false) (combine (map fst r) lambs)
      then vdist_loop_array n f lanes (map fst r) (map snd r)
      else (inl (map fst r), map snd r)).
Proof. reflexivity. Qed.
Lemma coincident_lane : exists d0 d1 a0 a1, fst (vdist_array ex_coincident None true) = Ok [(d0, a0); (d1, a1)] /\
  d1 <= (ell_b None * (1 + (ell_a None ^ 2 - ell_b None ^ 2) / ell_b None ^ 2 / 4)) * (PI / 2).
Proof.
  unfold vdist_array, ex_coincident. cbv zeta. cbn [map existsb]. rewrite resolve_a, resolve_b.
  assert (R0 : rad_in true 0 = 0) by apply rad_in_0. assert (R90 : rad_in true 90 = PI/2) by apply radians_90.
  rewrite !R0, R90, !nudge_0. set (f := flattening _). rewrite reduced_0.
  assert (O : lat_out_of_range 0 = false) by (apply out_of_range_false; pose proof PI_RGT_0; lra). rewrite O. cbn [orb].
  pose proof PI_RGT_0 as P. rewrite !lon_gap_0 by lra.
  set (len := vdist_length (ell_a None) (ell_b None)).
  assert (A : any_sin0 [(0, 0, 0); (0, 0, PI / 2)] [0; PI / 2] = true).
  { unfold any_sin0. cbn [combine existsb]. rewrite v_sigma_same, sin_0. destruct (Req_EM_T 0 0); [reflexivity|congruence]. }
  rewrite loop_array_S. cbv zeta. rewrite A. cbn [map combine]. cbn [vdist_step fst snd]. rewrite !v_lamb_alpha0. cbn [existsb].
  destruct (Rlt_dec PI 0); [lra|]. destruct (Rlt_dec PI (PI / 2)); [lra|]. cbn [orb]. rewrite !no_gap.
  destruct (Rlt_dec _ 0) as [X|_]; [pose proof e12; lra|]. cbn [orb fst map combine].
  do 4 eexists. split; [reflexivity|]. unfold len, vdist_length. rewrite cos_0.
  rewrite v_sigma_equator by lra. rewrite cos_PI2, sin_PI2. unfold v_cos2sigmam. rewrite v_sigma_equator by lra. rewrite cos_PI2, sin_0.
  replace (0 - 2 * 0 * 0 / cos 0 ^ 2) with 0 by (unfold Rdiv; ring). 
  set (B := vin_B _). replace (vin_deltasigma B 1 0 0) with 0 by (unfold vin_deltasigma, Rdiv; ring).
  rewrite Rminus_0_r. apply Rmult_le_compat_r; [lra|]. apply Rmult_le_compat_l; [cbn; lra|].
  unfold vin_A. rewrite pow1, Rmult_1_l. set (u := (ell_a None ^ 2 - ell_b None ^ 2) / ell_b None ^ 2).
  assert (U : 0 <= u <= 1/100).
  { unfold u, ell_a, ell_b. lra. }
  assert (u * (-768 + u * (320 - 175 * u)) <= 0) by nra. nra.
Qed.
Lemma antipodal_lane : fst (vdist_array ex_antipodal None true) = Raise ValueError.
Proof.
  unfold vdist_array, ex_antipodal. cbv zeta. cbn [map existsb]. 
  assert (R0 : rad_in true 0 = 0) by apply rad_in_0. rewrite !R0, !nudge_0.
  assert (O : lat_out_of_range 0 = false) by (apply out_of_range_false; pose proof PI_RGT_0; lra). rewrite O. cbn [orb].
  rewrite (ell_f None I). set (f := (ell_a None - ell_b None) / ell_a None). rewrite reduced_0.
  assert (F : 3 / 1000 <= f) by (unfold f, ell_a, ell_b; lra).
  pose proof pi_gt3 as P. set (x := rad_in true (1798 / 10)). assert (X : x = PI * (899/900)) by (unfold x, rad_in, radians; field).
  rewrite !lon_gap_0 by lra. assert (XR : 0 < x < PI) by lra.
  assert (A : any_sin0 [(0, 0, x); (0, 0, x)] [x; x] = false).
  { unfold any_sin0. cbn [combine existsb]. rewrite v_sigma_equator by lra. assert (0 < sin x) by (apply sin_gt_0; lra). destruct (Req_EM_T (sin x) 0); [lra|reflexivity]. }
  rewrite loop_array_S. cbv zeta. rewrite A. cbn [map combine]. cbn [vdist_step fst snd]. rewrite v_alpha_equator by lra. rewrite v_lamb_equator, v_sigma_equator by lra.
  cbn [existsb]. destruct (Rlt_dec PI (x + f * x)) as [_|N]; [reflexivity|]. exfalso. apply N. rewrite X. nra.
Qed.
(** ** euler *)
Lemma euler_val lat1 lon1 lat2 lon2 ell deg r : euler lat1 lon1 lat2 lon2 ell deg = Ok r ->
  exists d az, vdist (deg_out true (as_rad deg lat1)) (deg_out true (as_rad deg lon1)) (deg_out true (as_rad deg lat2)) (deg_out true (as_rad deg lon2)) ell true = Ok (d, az) /\
   let m := deg_out true ((as_rad deg lat1 + as_rad deg lat2) / 2) in
   r = meridian m ell true * transverse m ell true / (meridian m ell true * sin (radians az) ^ 2 + transverse m ell true * cos (radians az) ^ 2).
Proof.
  assert (D : forall x, (if deg then x else degrees x) = deg_out true (as_rad deg x)).
  { intros x. destruct deg; [|reflexivity]. cbn. symmetry. apply (degrees_radians x). }
  unfold euler. cbv zeta. rewrite !D. unfold bind. destruct (vdist _ _ _ _ _ _) as [[d az]|e]; [|discriminate]. intros E. exists d, az.
  split; [reflexivity|]. cbv zeta. replace (deg_out true ((as_rad deg lat1 + as_rad deg lat2) / 2)) with
    (deg_out true (as_rad deg lat1) + (deg_out true (as_rad deg lat2) - deg_out true (as_rad deg lat1)) / 2) by (cbn; unfold degrees; field; apply PI_neq0).
  injection E as <-. reflexivity.
Qed.
Lemma F2_length {A B} (P : A -> B -> Prop) l l' : Forall2 P l l' -> List.length l = List.length l'.
Proof. induction 1 as [|x y l l' H F IH]; [reflexivity|]. cbn. now rewrite IH. Qed.
