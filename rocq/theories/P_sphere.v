(** Properties C26 (angular separation) and C28-C31 (n-vectors). *)
From Coq Require Import Lia Psatz Permutation.
From Verif Require Import PyMath M_ellipsoid M_ecef M_rsphere M_nvector M_haversine Spec.
From Verif Require L_PyMath L_ell L_ecef L_ecefrt L_aer L_frames L_nvector.
Open Scope R_scope.

(** ** C26: without astropy (or when forced) anglesep is the angle between the
    two directions *)
Theorem C26_anglesep_is_angle : forall astropy lon0 lat0 lon1 lat1 deg force,
  astropy = None \/ force = true ->
  let sep := anglesep astropy lon0 lat0 lon1 lat1 deg force in
  let p := unit_normal (as_rad deg lat0) (as_rad deg lon0) in
  let q := unit_normal (as_rad deg lat1) (as_rad deg lon1) in
  0 <= sep <= half deg /\ cos (as_rad deg sep) = vdot p q /\
  sep = anglesep_meeus lon0 lat0 lon1 lat1 deg.
Proof.
  intros astropy lon0 lat0 lon1 lat1 deg force Hf sep p q.
  assert (E : sep = anglesep_meeus lon0 lat0 lon1 lat1 deg).
  { unfold sep, anglesep. destruct Hf as [-> | ->]; [reflexivity|]. destruct astropy; reflexivity. }
  assert (Hp : is_unit p) by apply L_ecef.unit_normal_unit.
  assert (Hq : is_unit q) by apply L_ecef.unit_normal_unit.
  pose proof (L_nvector.anglesep_angle lon0 lat0 lon1 lat1 deg) as A. fold p q in A.
  pose proof (L_nvector.angle_range p q Hp Hq) as B.
  rewrite E, A. refine (conj _ (conj _ eq_refl)).
  - rewrite <- (L_aer.deg_out_0 deg), <- (L_aer.deg_out_half deg). split; apply L_aer.deg_out_le; lra.
  - rewrite L_ell.as_rad_rad_in, L_PyMath.rad_in_deg_out. now apply L_nvector.cos_angle.
Qed.
Theorem C26_anglesep_metric : forall lonA latA lonB latB lonC latC deg,
  let d := fun lon0 lat0 lon1 lat1 => anglesep None lon0 lat0 lon1 lat1 deg false in
  d lonA latA lonB latB = d lonB latB lonA latA /\
  (d lonA latA lonB latB = 0 <->
     unit_normal (as_rad deg latA) (as_rad deg lonA) = unit_normal (as_rad deg latB) (as_rad deg lonB)) /\
  d lonA latA lonC latC <= d lonA latA lonB latB + d lonB latB lonC latC.
Proof.
  intros lonA latA lonB latB lonC latC deg d.
  set (p := unit_normal (as_rad deg latA) (as_rad deg lonA)).
  set (q := unit_normal (as_rad deg latB) (as_rad deg lonB)).
  set (r := unit_normal (as_rad deg latC) (as_rad deg lonC)).
  assert (Hp : is_unit p) by apply L_ecef.unit_normal_unit.
  assert (Hq : is_unit q) by apply L_ecef.unit_normal_unit.
  assert (Hr : is_unit r) by apply L_ecef.unit_normal_unit.
  assert (D : forall lon0 lat0 lon1 lat1, d lon0 lat0 lon1 lat1
    = deg_out deg (unit_angle (unit_normal (as_rad deg lat0) (as_rad deg lon0))
                              (unit_normal (as_rad deg lat1) (as_rad deg lon1)))).
  { intros. unfold d. rewrite <- L_nvector.anglesep_angle. reflexivity. }
  rewrite !D. fold p q r. repeat split.
  - f_equal. apply L_nvector.angle_sym.
  - intros E. apply L_nvector.angle_0; [assumption..|].
    rewrite <- (L_PyMath.rad_in_deg_out deg (unit_angle p q)), E. apply L_aer.rad_in_0.
  - intros E. apply L_nvector.angle_0 in E; [|assumption..]. rewrite E. apply L_aer.deg_out_0.
  - pose proof (L_nvector.angle_triangle p q r Hp Hq Hr) as T. apply (L_aer.deg_out_le deg) in T.
    unfold deg_out, degrees in *. destruct deg; lra.
Qed.
Example C26_hypotheses_met : (None : option (R -> R -> R -> R -> R)) = None. Proof. reflexivity. Qed.

(** ** C28: n-vector conversions *)
Theorem C28_nvector_is_unit_normal : forall lat lon deg,
  geodetic2nvector lat lon deg = unit_normal (as_rad deg lat) (as_rad deg lon) /\
  is_unit (geodetic2nvector lat lon deg).
Proof.
  intros. rewrite L_nvector.g2n_normal. split; [reflexivity|apply L_ecef.unit_normal_unit].
Qed.
Theorem C28_nvector_is_surface_normal : forall ell lat lon deg, ell_ok ell ->
  exists k, 0 < k /\
  gradient (ell_a ell) (ell_b ell) (geodetic2ecef lat lon 0 ell deg) = vscale k (geodetic2nvector lat lon deg).
Proof.
  intros ell lat lon deg H. rewrite L_nvector.g2n_normal.
  destruct (L_ecef.g2e_gradient ell H lat lon deg) as (k & Hk & E). exists k. split; [exact Hk|exact E].
Qed.
Theorem C28_roundtrip_geodetic : forall lat lon deg,
  - quarter deg < lat < quarter deg -> - half deg < lon <= half deg ->
  nvector2geodetic (geodetic2nvector lat lon deg) deg = (lat, lon).
Proof. intros. now apply L_nvector.n2g_g2n. Qed.
Theorem C28_roundtrip_nvector : forall n deg, is_unit n ->
  let '(lat, lon) := nvector2geodetic n deg in
  geodetic2nvector lat lon deg = n /\ - quarter deg <= lat <= quarter deg /\ - half deg < lon <= half deg.
Proof.
  intros n deg Hn. pose proof (L_nvector.g2n_n2g n deg Hn). pose proof (L_nvector.n2g_range n deg).
  destruct (nvector2geodetic n deg). tauto.
Qed.
Theorem C28_nvector2ecef : forall ell lat lon h deg, - quarter deg <= lat <= quarter deg ->
  nvector2ecef (geodetic2nvector lat lon deg) h ell deg = geodetic2ecef lat lon h ell deg.
Proof.
  intros ell lat lon h deg Hl. unfold nvector2ecef.
  pose proof (C28_roundtrip_nvector _ deg (proj2 (C28_nvector_is_unit_normal lat lon deg))) as R.
  destruct (nvector2geodetic _ deg) as [lat' lon']. destruct R as (R1 & R2 & _).
  apply L_nvector.g2e_of_nvec; assumption.
Qed.
Theorem C28_ecef2nvector_surface : forall ell lat lon deg, ell_ok ell ->
  - quarter deg < lat < quarter deg -> - half deg < lon <= half deg ->
  let '(x, y, z) := geodetic2ecef lat lon 0 ell deg in
  ecef2nvector x y z ell deg = geodetic2nvector lat lon deg.
Proof.
  intros ell lat lon deg H Hl Hn. pose proof (L_ecefrt.roundtrip_surface ell lat lon deg H Hl Hn) as R.
  destruct (geodetic2ecef lat lon 0 ell deg) as [[x y] z]. unfold ecef2nvector. rewrite R. reflexivity.
Qed.
Example C28_hypotheses_met : - quarter true < 45 < quarter true /\ - half true < 180 <= half true
  /\ is_unit (0, 3/5, 4/5) /\ ell_ok (Some L_ell.ex_ell).
Proof. cbn [quarter half]. unfold is_unit, vdot. repeat split; try lra; apply L_ell.ex_ell_ok. Qed.

(** ** C29: great-circle distance is a metric *)
Theorem C29_distance_is_angle : forall p q r, is_unit p -> is_unit q ->
  nvector_distance p q (Some r) = r * acos (vdot p q) /\
  nvector_distance p q None = eqavol None * acos (vdot p q).
Proof. intros. split; now rewrite L_nvector.distance_angle. Qed.
Theorem C29_metric : forall p q s r, is_unit p -> is_unit q -> is_unit s -> 0 < r ->
  let d := fun u v => nvector_distance u v (Some r) in
  0 <= d p q <= PI * r /\ d p q = d q p /\ (d p q = 0 <-> p = q) /\ (d p q = PI * r <-> q = vopp p) /\
  d p s <= d p q + d q s.
Proof.
  intros p q s r Hp Hq Hs Hr d. unfold d. rewrite !L_nvector.distance_angle by assumption. cbn [radius_of].
  pose proof (L_nvector.angle_range p q Hp Hq). pose proof (L_nvector.angle_triangle p q s Hp Hq Hs).
  pose proof (L_nvector.angle_0 p q Hp Hq) as A0. pose proof (L_nvector.angle_PI p q Hp Hq) as AP.
  repeat split; try nra.
  - f_equal. apply L_nvector.angle_sym.
  - intros E. apply A0. apply Rmult_eq_reg_l with r; lra.
  - intros E. apply A0 in E. rewrite E. ring.
  - intros E. apply AP. apply Rmult_eq_reg_l with r; lra.
  - intros E. apply AP in E. rewrite E. ring.
Qed.
Example C29_hypotheses_met : is_unit (1, 0, 0) /\ is_unit (0, 3/5, 4/5) /\ is_unit (0, 0, -1) /\ 0 < 6371000.
Proof. unfold is_unit, vdot. repeat split; lra. Qed.

(** ** C30: interpolation.  Above the code's 1e-10 rad threshold it is exact. *)
Theorem C30_constant_speed : forall p q f, is_unit p -> is_unit q -> p <> vopp q ->
  1 / 10000000000 <= unit_angle p q -> 0 <= f <= 1 ->
  exists r, nvector_interpolate p q f = Some r /\ on_great_circle p q r /\
    unit_angle p r = f * unit_angle p q /\ unit_angle r q = (1 - f) * unit_angle p q.
Proof.
  intros p q f Hp Hq Hne Hw Hf.
  destruct (L_nvector.interpolate_slerp p q f Hp Hq Hne Hw) as (r & E & Hu & Ho & D1 & D2).
  pose proof (L_nvector.angle_range p q Hp Hq) as B.
  exists r. repeat split; try assumption.
  - unfold unit_angle at 1. rewrite D1. apply acos_cos. split; nra.
  - unfold unit_angle at 1. rewrite L_ecef.vdot_comm, D2. apply acos_cos. split; nra.
Qed.
(** On the great circle at every fraction, also outside [0,1] (extrapolation). *)
Theorem C30_any_fraction : forall p q f, is_unit p -> is_unit q -> p <> vopp q ->
  1 / 10000000000 <= unit_angle p q ->
  exists r, nvector_interpolate p q f = Some r /\ on_great_circle p q r /\
    vdot p r = cos (f * unit_angle p q) /\ vdot q r = cos ((1 - f) * unit_angle p q).
Proof.
  intros p q f Hp Hq Hne Hw.
  destruct (L_nvector.interpolate_slerp p q f Hp Hq Hne Hw) as (r & E & Hu & Ho & D1 & D2).
  exists r. repeat split; assumption.
Qed.
Theorem C30_endpoints : forall p q, is_unit p -> is_unit q -> p <> vopp q ->
  nvector_interpolate p q 0 = Some p /\ nvector_interpolate p q 1 = Some q.
Proof.
  intros p q Hp Hq Hne.
  destruct (Rlt_dec (unit_angle p q) (1 / 10000000000)) as [L|L].
  - destruct (L_nvector.interpolate_lerp p q 0 Hp Hq ltac:(lra) L) as (r0 & E0 & _ & _ & _ & Z0 & _).
    destruct (L_nvector.interpolate_lerp p q 1 Hp Hq ltac:(lra) L) as (r1 & E1 & _ & _ & _ & _ & Z1).
    rewrite E0, E1, Z0, Z1 by reflexivity. split; reflexivity.
  - assert (Hw : 1 / 10000000000 <= unit_angle p q) by lra.
    destruct (L_nvector.interpolate_slerp p q 0 Hp Hq Hne Hw) as (r0 & E0 & U0 & _ & D0 & _).
    destruct (L_nvector.interpolate_slerp p q 1 Hp Hq Hne Hw) as (r1 & E1 & U1 & _ & _ & D1).
    replace (0 * unit_angle p q) with 0 in D0 by ring. replace ((1 - 1) * unit_angle p q) with 0 in D1 by ring.
    rewrite cos_0 in *. apply L_ecef.unit_dot_eq1 in D0; [|assumption..]. apply L_ecef.unit_dot_eq1 in D1; [|assumption..].
    subst. split; assumption.
Qed.
(** Below the threshold: still a unit vector on the great circle, no farther
    from p than q is, so the spacing error is below 1e-10 rad. *)
Theorem C30_nearly_coincident : forall p q f, is_unit p -> is_unit q -> 0 <= f <= 1 ->
  unit_angle p q < 1 / 10000000000 ->
  exists r, nvector_interpolate p q f = Some r /\ on_great_circle p q r /\
    Rabs (unit_angle p r - f * unit_angle p q) < 1 / 10000000000.
Proof.
  intros p q f Hp Hq Hf L.
  destruct (L_nvector.interpolate_lerp p q f Hp Hq Hf L) as (r & E & Hu & Ho & D & _).
  pose proof (L_nvector.angle_range p q Hp Hq). pose proof (L_nvector.angle_range p r Hp Hu).
  exists r. repeat split; try assumption. apply Rabs_def1; nra.
Qed.
Example C30_hypotheses_met : is_unit (1, 0, 0) /\ is_unit (0, 1, 0) /\ (1, 0, 0) <> vopp (0, 1, 0)
  /\ 1 / 10000000000 <= unit_angle (1, 0, 0) (0, 1, 0).
Proof.
  unfold is_unit, unit_angle, vdot, vopp. repeat split; try lra.
  - intros E. injection E. lra.
  - replace (1 * 0 + 0 * 1 + 0 * 0) with 0 by ring. rewrite acos_0. pose proof PI2_3_2. lra.
Qed.

(** ** C31 *)
Theorem C31_mean_unit : forall l : list vec3,
  match nvector_mean (map (fun v => fst (fst v)) l) (map (fun v => snd (fst v)) l) (map snd l) with
  | Some m => is_unit m /\ exists k, 0 < k /\ vscale k m = fold_right vadd (0, 0, 0) l
  | None => fold_right vadd (0, 0, 0) l = (0, 0, 0)
  end.
Proof.
  intros l. unfold nvector_mean.
  assert (E : (py_sum (map (fun v => fst (fst v)) l), py_sum (map (fun v => snd (fst v)) l), py_sum (map snd l))
    = fold_right vadd (0, 0, 0) l).
  { induction l as [|[[a b] c] l IH]; [reflexivity|]. cbn [map fold_right fst snd]. rewrite <- IH.
    unfold py_sum. cbn [fold_left vadd]. rewrite !(L_nvector.fold_Rplus_acc _ (0 + _)).
    apply L_frames.pair3_eq; ring. }
  rewrite E. set (s := fold_right vadd (0,0,0) l).
  destruct (L_nvector.norm3_spec s) as [[-> Z]|(_ & -> & Hu & Hn)]; [exact Z|].
  split; [exact Hu|]. exists (vnorm s). split; [exact Hn|]. destruct s as [[s1 s2] s3].
  set (k := vnorm _) in *. unfold vscale. apply L_frames.pair3_eq; field; lra.
Qed.
Theorem C31_mean_order_independent : forall l l' : list vec3, Permutation l l' ->
  nvector_mean (map (fun v => fst (fst v)) l) (map (fun v => snd (fst v)) l) (map snd l) =
  nvector_mean (map (fun v => fst (fst v)) l') (map (fun v => snd (fst v)) l') (map snd l').
Proof.
  intros l l' P. unfold nvector_mean. f_equal.
  apply L_frames.pair3_eq; apply L_nvector.py_sum_perm; now apply Permutation_map.
Qed.
(** |d| is the least angle from n to a point of the great circle, attained;
    the sign is that of the triple product. *)
Theorem C31_cross_track : forall p q n r, is_unit p -> is_unit q -> is_unit n -> vcross p q <> (0, 0, 0) ->
  exists d, nvector_cross_track_distance p q n (Some r) = Some (r * d) /\ - (PI/2) <= d <= PI/2 /\
    sin d * vnorm (vcross p q) = vdot (vcross p q) n /\
    (forall g, on_great_circle p q g -> Rabs d <= unit_angle n g) /\
    (exists g, on_great_circle p q g /\ Rabs d = unit_angle n g).
Proof. intros. now apply (L_nvector.cross_track_spec p q n (Some r)). Qed.
(** The intersection lies on both great circles, on the centroid's side, and
    the only other common point is its antipode. *)
Theorem C31_intersection : forall p1 p2 p3 p4, vcross (vcross p1 p2) (vcross p3 p4) <> (0, 0, 0) ->
  exists i, nvector_intersection p1 p2 p3 p4 = Some i /\
    on_great_circle p1 p2 i /\ on_great_circle p3 p4 i /\
    0 <= vdot i (vadd (vadd p1 p2) (vadd p3 p4)) /\
    (forall j, on_great_circle p1 p2 j -> on_great_circle p3 p4 j -> j = i \/ j = vopp i).
Proof. exact L_nvector.intersection_spec. Qed.
Theorem C31_intersection_degenerate : forall p1 p2 p3 p4, vcross (vcross p1 p2) (vcross p3 p4) = (0, 0, 0) ->
  nvector_intersection p1 p2 p3 p4 = None.
Proof.
  intros p1 p2 p3 p4 E. unfold nvector_intersection. cbv zeta.
  change (cross3 (cross3 p1 p2) (cross3 p3 p4)) with (vcross (vcross p1 p2) (vcross p3 p4)). rewrite E.
  destruct (L_nvector.norm3_spec (0,0,0)) as [[-> _]|(Z & _)]; [reflexivity|now elim Z].
Qed.
Example C31_hypotheses_met : is_unit (1, 0, 0) /\ is_unit (0, 1, 0) /\ is_unit (0, 3/5, 4/5)
  /\ vcross (1, 0, 0) (0, 1, 0) <> (0, 0, 0)
  /\ vcross (vcross (1, 0, 0) (0, 1, 0)) (vcross (0, 3/5, 4/5) (0, 0, 1)) <> (0, 0, 0).
Proof.
  unfold is_unit, vdot, vcross. repeat split; try lra; intros E; injection E; lra.
Qed.
