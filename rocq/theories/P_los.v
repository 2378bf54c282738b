(** C42: lookAtSpheroid *)
From Coq Require Import Lia Psatz.
From Verif Require Import PyMath L_PyMath M_ellipsoid M_ecef M_enu M_los Spec Spec_los.
From Verif Require Import L_ell L_los.
From Verif Require L_ecef L_ecefrt L_aer.
Open Scope R_scope.

(** A negative observer altitude raises ValueError, and nothing else does. *)
Theorem C42_negative_altitude : forall lat0 lon0 h0 az tilt ell deg,
  h0 < 0 <-> lookAtSpheroid lat0 lon0 h0 az tilt ell deg = Raise ValueError.
Proof.
  intros. unfold lookAtSpheroid. destruct (Rlt_dec h0 0); split; intros H; try tauto; try reflexivity; discriminate.
Qed.

(** [los_ok a b P D deg r]: r is the right answer for the ray from P in
    direction D and the spheroid a, b: NaN only when no point ahead is on the
    surface; else the distance of the first surface point met and that point's
    geodetic latitude and longitude. *)
Definition los_ok (a b : R) (ell : option Ellipsoid) (P D : vec3) (deg : bool) (r : option vec3) : Prop :=
  match r with
  | None => forall t, 0 < t -> ~ on_ellipsoid a b (ray P D t)
  | Some (lat, lon, d) =>
      0 <= d /\ on_ellipsoid a b (ray P D d) /\
      (forall t, 0 <= t < d -> ~ on_ellipsoid a b (ray P D t)) /\
      geodetic2ecef lat lon 0 ell deg = ray P D d /\
      - quarter deg <= lat <= quarter deg /\ - half deg < lon <= half deg
  end.

Lemma ray_hit a b P D t : on_ellipsoid a b (ray P D t)
  <-> (qf a b P P - 1) + 2 * t * qf a b P D + t ^ 2 * qf a b D D = 0.
Proof. unfold ray. rewrite on_ell_qf, qf_ray. split; lra. Qed.

(** With the default ellipsoid (or any object with the WGS-84 axes) the whole
    property holds, for every observer and direction. *)
Theorem C42_first_intersection : forall ell lat0 lon0 h0 az tilt deg, ell_ok ell ->
  ell_a ell = ell_a None -> ell_b ell = ell_b None -> 0 <= h0 ->
  exists r, lookAtSpheroid lat0 lon0 h0 az tilt ell deg = Ok r /\
  los_ok (ell_a ell) (ell_b ell) ell (geodetic2ecef lat0 lon0 h0 ell deg)
    (sight (as_rad deg lat0) (as_rad deg lon0) (as_rad deg az) (as_rad deg tilt)) deg r.
Proof.
  intros ell lat0 lon0 h0 az tilt deg Hok Ea Eb Hh. pose proof (ell_pos ell Hok) as [Hb Ha].
  assert (EG : forall la lo h, geodetic2ecef la lo h ell deg = geodetic2ecef la lo h None deg).
  { intros. rewrite (L_ecef.g2e_unfold ell Hok), (L_ecef.g2e_unfold None I), Ea, Eb. reflexivity. }
  unfold lookAtSpheroid. destruct (Rlt_dec h0 0) as [Hn|_]; [lra|]. eexists. split; [reflexivity|].
  rewrite (los_hit_form _ _ _ _ _ _ _ Hok). cbv zeta. rewrite EG.
  set (D := eq_dir deg lat0 lon0 az tilt). change (sight _ _ _ _) with D.
  pose proof (outside_height None lat0 lon0 h0 deg I Hh) as [Out _]. rewrite <- Ea, <- Eb in Out.
  set (P := geodetic2ecef lat0 lon0 h0 None deg) in *.
  pose proof (qf_pos (ell_a ell) (ell_b ell) D ltac:(lra) Hb (sight_unit _ _ _ _)) as HA.
  set (a := ell_a ell) in *. set (b := ell_b ell) in *.
  set (A := qf a b D D) in *. set (B := qf a b P D) in *. set (C := qf a b P P - 1) in *.
  destruct (Rlt_dec (B ^ 2 - A * C) 0) as [Hd|Hd].
  { intros t Ht. rewrite ray_hit. fold A B C. exact (quad_none A B C HA t Hd). }
  set (d := (- B - sqrt (B ^ 2 - A * C)) / A).
  destruct (Rlt_dec d 0) as [Hd0|Hd0].
  { intros t Ht. rewrite ray_hit. fold A B C. exact (quad_behind A B C HA t ltac:(lra) ltac:(unfold C; lra) Hd0 Ht). }
  assert (Hit : on_ellipsoid a b (ray P D d)).
  { rewrite ray_hit. fold A B C. exact (quad_d A B C HA ltac:(lra)). }
  change (vadd P (vscale d D)) with (ray P D d).
  assert (Q8 : 1 / 100000000 < ell_b None) by (unfold ell_b; lra).
  destruct (ray P D d) as [[x y] z] eqn:ER.
  pose proof (surface_back None deg x y z I Q8 ltac:(unfold a, b in Hit; rewrite <- Ea, <- Eb; exact Hit)) as Sb.
  destruct (ecef2geodetic x y z None deg) as [[la lo] al]. cbn [los_ok]. rewrite EG, ER.
  destruct Sb as (S1 & _ & S2 & S3). repeat split; try assumption; try lra.
  intros t Ht Hh'. rewrite ray_hit in Hh'. fold A B C in Hh'. apply (quad_first A B C HA t) in Hh'; [|lra].
  fold d in Hh'. lra.
Qed.

(** Looking straight down from altitude h0 gives the foot point and d = h0. *)
Theorem C42_nadir : forall lat0 lon0 h0 az deg, 0 <= h0 ->
  - quarter deg < lat0 < quarter deg -> - half deg < lon0 <= half deg ->
  lookAtSpheroid lat0 lon0 h0 az 0 None deg = Ok (Some (lat0, lon0, h0)).
Proof.
  intros lat0 lon0 h0 az deg Hh Hla Hlo.
  destruct (C42_first_intersection None lat0 lon0 h0 az 0 deg I eq_refl eq_refl Hh) as (r & Er & Hr).
  set (P := fun h => geodetic2ecef lat0 lon0 h None deg) in *. change (geodetic2ecef lat0 lon0 h0 None deg) with (P h0) in Hr.
  set (D := sight _ _ _ _) in *.
  assert (ED : D = vscale (-1) (unit_normal (as_rad deg lat0) (as_rad deg lon0))).
  { unfold D, sight. change as_rad with rad_in. rewrite L_aer.rad_in_0, sin_0, cos_0.
    unfold vadd, vscale, east_axis, north_axis, up_axis, unit_normal. apply f_equal2; [apply f_equal2|]; ring. }
  assert (ERay : forall t, ray (P h0) D t = P (h0 - t)).
  { intros t. unfold ray, P. rewrite ED. rewrite (L_ecef.g2e_normal None I lat0 lon0 h0), (L_ecef.g2e_normal None I lat0 lon0 (h0 - t)).
    destruct (geodetic2ecef lat0 lon0 0 None deg) as [[x y] z], (unit_normal _ _) as [[u v] w].
    unfold vadd, vscale. apply f_equal2; [apply f_equal2|]; ring. }
  assert (Hit : on_ellipsoid (ell_a None) (ell_b None) (P 0)) by apply (L_ecef.g2e_surface None I).
  rewrite Er. f_equal. destruct r as [[[la lo] d]|].
  - destruct Hr as (H1 & H2 & H3 & H4 & _ & _). rewrite ERay in H2, H4.
    assert (d = h0).
    { destruct (Rtotal_order d h0) as [L|[L|L]]; [|exact L|].
      - exfalso. pose proof (outside_height None lat0 lon0 (h0 - d) deg I ltac:(lra)) as [_ O].
        specialize (O ltac:(lra)). apply on_ell_qf in H2. unfold P in H2. lra.
      - exfalso. apply (H3 h0 ltac:(lra)). rewrite ERay. replace (h0 - h0) with 0 by ring. exact Hit. }
    subst d. replace (h0 - h0) with 0 in * by ring. unfold P in *.
    assert (X : lookAtSpheroid lat0 lon0 h0 az 0 None deg = Ok (Some (la, lo, h0)) -> la = lat0 /\ lo = lon0).
    { unfold lookAtSpheroid. destruct (Rlt_dec h0 0); [lra|]. rewrite (los_hit_form _ _ _ _ _ None _ I). cbv zeta.
      destruct (Rlt_dec _ 0); [discriminate|]. destruct (Rlt_dec _ 0); [discriminate|].
      change (eq_dir deg lat0 lon0 az 0) with D. match goal with |- context [vscale ?k D] => set (dd := k) end.
      change (vadd _ (vscale dd D)) with (ray (P h0) D dd).
      pose proof (L_ecefrt.roundtrip_surface None lat0 lon0 deg I Hla Hlo) as RT.
      destruct (ray (P h0) D dd) as [[x y] z] eqn:Ex.
      destruct (ecef2geodetic x y z None deg) as [[la' lo'] al'] eqn:Eg. intros Q.
      assert (Eq : la' = la /\ lo' = lo /\ dd = h0) by (clearbody dd; inversion Q; auto). destruct Eq as (-> & -> & Edd).
      rewrite Edd, ERay in Ex. replace (h0 - h0) with 0 in Ex by ring. unfold P in Ex. rewrite Ex in RT. rewrite RT in Eg.
      inversion Eg; auto. }
    destruct (X Er) as [-> ->]. reflexivity.
  - exfalso. destruct (Req_dec h0 0) as [->|Hn0].
    + (* on the surface, looking down: the first root is 0, not negative *)
      unfold lookAtSpheroid in Er. destruct (Rlt_dec 0 0); [lra|]. rewrite (los_hit_form _ _ _ _ _ None _ I) in Er. cbv zeta in Er.
      change (eq_dir deg lat0 lon0 az 0) with D in Er. change (geodetic2ecef lat0 lon0 0 None deg) with (P 0) in Er.
      pose proof (ell_pos None I) as [Hb Ha].
      pose proof (proj1 (on_ell_qf _ _ _) Hit) as Q1.
      set (A := qf _ _ D D) in *. set (B := qf _ _ (P 0) D) in *.
      assert (HA : 0 < A) by (apply qf_pos; [lra|exact Hb|apply sight_unit]).
      assert (HB : B <= 0).
      { destruct (L_ecef.g2e_gradient None I lat0 lon0 deg) as (k & K & G).
        unfold B. rewrite ED. pose proof (L_ecef.unit_normal_unit (as_rad deg lat0) (as_rad deg lon0)) as U.
        fold (P 0) in G. destruct (P 0) as [[x y] z], (unit_normal _ _) as [[u v] w].
        unfold qf, vscale, gradient, vdot in *.
        apply pair_equal_spec in G; destruct G as [G G3]; apply pair_equal_spec in G; destruct G as [G1 G2]. replace (_ + _) with (- (x / ell_a None ^ 2 * u + y / ell_a None ^ 2 * v + z / ell_b None ^ 2 * w)) by (unfold Rdiv; ring).
        rewrite G1, G2, G3. nra. }
      rewrite Q1 in Er. replace (B ^ 2 - A * (1 - 1)) with (B ^ 2) in Er by ring.
      pose proof (pow2_ge_0 B). destruct (Rlt_dec (B ^ 2) 0) as [Hl|_]; [lra|].
      assert (Sq : sqrt (B ^ 2) = - B) by (replace (B ^ 2) with ((- B) ^ 2) by ring; apply sqrt_pow2; lra).
      rewrite Sq in Er. replace ((- B - - B) / A) with 0 in Er by (field; lra).
      destruct (Rlt_dec 0 0); [lra|]. destruct (vadd _ _) as [[x y] z]. destruct (ecef2geodetic x y z None deg) as [[? ?] ?]. discriminate.
    + apply (Hr h0 ltac:(lra)). rewrite ERay. replace (h0 - h0) with 0 by ring. exact Hit.
Qed.

(** Looking away from the body from a positive altitude gives NaN. *)
Theorem C42_upwards_nan : forall lat0 lon0 h0 az tilt deg, 0 <= h0 ->
  PI / 2 <= as_rad deg tilt <= PI -> 0 < h0 ->
  lookAtSpheroid lat0 lon0 h0 az tilt None deg = Ok None.
Proof.
  intros lat0 lon0 h0 az tilt deg Hh Ht Hpos. pose proof PI_RGT_0.
  destruct (C42_first_intersection None lat0 lon0 h0 az tilt deg I eq_refl eq_refl Hh) as (r & Er & Hr).
  rewrite Er. f_equal. destruct r as [[[la lo] d]|]; [|reflexivity]. exfalso.
  destruct Hr as (H1 & H2 & _ & _ & _ & _).
  (* the tangent plane at the foot point separates the ray from the body *)
  pose proof (ell_pos None I) as [Hb Ha].
  destruct (L_ecef.g2e_gradient None I lat0 lon0 deg) as (k & K & G).
  pose proof (L_ecef.ellipsoid_support (ell_a None) (ell_b None) _ _ ltac:(lra) Hb (L_ecef.g2e_surface None I lat0 lon0 deg) H2) as Sp.
  rewrite G in Sp. unfold ray in Sp. rewrite (L_ecef.g2e_normal None I lat0 lon0 h0) in Sp.
  set (n := unit_normal _ _) in *. set (D := sight _ _ _ _) in *.
  assert (Dn : vdot D n = - cos (as_rad deg tilt)).
  { unfold D, n, sight, vadd, vscale, east_axis, north_axis, up_axis, unit_normal, vdot.
    pose proof (sc1 (as_rad deg lat0)) as S1. pose proof (sc1 (as_rad deg lon0)) as S2.
    set (sp := sin (as_rad deg lat0)) in *. set (cp := cos (as_rad deg lat0)) in *.
    set (sl := sin (as_rad deg lon0)) in *. set (cl := cos (as_rad deg lon0)) in *.
    set (E := _ * sin (as_rad deg az)). set (N := _ * cos (as_rad deg az)). set (U := - cos (as_rad deg tilt)).
    transitivity (U * (sp * sp + cp * cp * (sl * sl + cl * cl)) + N * sp * cp * (1 - (sl * sl + cl * cl))); [ring|].
    rewrite S2, Rmult_1_r, S1. ring. }
  pose proof (L_ecef.unit_normal_unit (as_rad deg lat0) (as_rad deg lon0)) as U. fold n in U.
  assert (Cn : cos (as_rad deg tilt) <= 0) by (apply cos_le_0; lra).
  destruct (geodetic2ecef lat0 lon0 0 None deg) as [[x y] z]. clearbody D n.
  destruct D as [[d1 d2] d3], n as [[n1 n2] n3]. unfold vdot, vsub, vadd, vscale in *.
  replace (_ + _) with (k * (h0 * (n1 * n1 + n2 * n2 + n3 * n3) + d * (d1 * n1 + d2 * n2 + d3 * n3))) in Sp by ring.
  rewrite U, Dn in Sp. assert (0 <= d * - cos (as_rad deg tilt)) by (apply Rmult_le_pos; lra). assert (0 < h0 * 1 + d * - cos (as_rad deg tilt)) by lra. pose proof (Rmult_lt_0_compat _ _ K H3). lra.
Qed.

(** For another ellipsoid the axes of [ell] are used, but the observer is placed
    with WGS-84: from a position outside [ell] the distance is that of the first
    intersection of the ray from the WGS-84 position. *)
Theorem C42_axes_of_ell_partial : forall ell lat0 lon0 h0 az tilt deg, ell_ok ell -> 0 <= h0 ->
  let P := geodetic2ecef lat0 lon0 h0 None deg in
  let D := sight (as_rad deg lat0) (as_rad deg lon0) (as_rad deg az) (as_rad deg tilt) in
  (let '(x, y, z) := P in 1 <= x ^ 2 / ell_a ell ^ 2 + y ^ 2 / ell_a ell ^ 2 + z ^ 2 / ell_b ell ^ 2) ->
  match lookAtSpheroid lat0 lon0 h0 az tilt ell deg with
  | Ok None => forall t, 0 < t -> ~ on_ellipsoid (ell_a ell) (ell_b ell) (ray P D t)
  | Ok (Some (lat, lon, d)) => 0 <= d /\ on_ellipsoid (ell_a ell) (ell_b ell) (ray P D d) /\
      (forall t, 0 <= t < d -> ~ on_ellipsoid (ell_a ell) (ell_b ell) (ray P D t))
  | Raise _ => False
  end.
Proof.
  intros ell lat0 lon0 h0 az tilt deg Hok Hh P D Hout. pose proof (ell_pos ell Hok) as [Hb Ha].
  unfold lookAtSpheroid. destruct (Rlt_dec h0 0) as [Hn|_]; [lra|].
  rewrite (los_hit_form _ _ _ _ _ _ _ Hok). cbv zeta. change (eq_dir deg lat0 lon0 az tilt) with D. fold P.
  assert (Out : 1 <= qf (ell_a ell) (ell_b ell) P P).
  { destruct P as [[x y] z]. unfold qf. replace (x * x) with (x ^ 2) by ring. replace (y * y) with (y ^ 2) by ring.
    replace (z * z) with (z ^ 2) by ring. exact Hout. }
  pose proof (qf_pos (ell_a ell) (ell_b ell) D ltac:(lra) Hb (sight_unit _ _ _ _)) as HA.
  set (a := ell_a ell) in *. set (b := ell_b ell) in *.
  set (A := qf a b D D) in *. set (B := qf a b P D) in *. set (C := qf a b P P - 1) in *.
  destruct (Rlt_dec (B ^ 2 - A * C) 0) as [Hd|Hd].
  { intros t Ht. rewrite ray_hit. fold A B C. exact (quad_none A B C HA t Hd). }
  set (d := (- B - sqrt (B ^ 2 - A * C)) / A).
  destruct (Rlt_dec d 0) as [Hd0|Hd0].
  { intros t Ht. rewrite ray_hit. fold A B C. exact (quad_behind A B C HA t ltac:(lra) ltac:(unfold C; lra) Hd0 Ht). }
  destruct (vadd P (vscale d D)) as [[x y] z]. destruct (ecef2geodetic x y z None deg) as [[la lo] al].
  split; [lra|]. split; [rewrite ray_hit; fold A B C; exact (quad_d A B C HA ltac:(lra))|].
  intros t Ht Hh'. rewrite ray_hit in Hh'. fold A B C in Hh'. apply (quad_first A B C HA t) in Hh'; [|lra].
  fold d in Hh'. lra.
Qed.

(** Refuted for other ellipsoids: an observer standing on the surface of a unit
    sphere, looking down, is told that the ground is 6378136 m away. *)
Definition unit_sphere : Ellipsoid := mkEllipsoid "" "" 1 1 0 0 0.
Lemma unit_sphere_valid : valid_ell unit_sphere.
Proof. unfold valid_ell, unit_sphere. cbn. repeat split; lra. Qed.
Theorem C42_other_ellipsoid_refuted : exists ell, ell_ok ell /\
  exists lat lon d, lookAtSpheroid 0 0 0 0 0 ell true = Ok (Some (lat, lon, d)) /\ d = 6378136.
Proof.
  exists (Some unit_sphere). split; [exact unit_sphere_valid|].
  unfold lookAtSpheroid. destruct (Rlt_dec 0 0); [lra|].
  rewrite (los_hit_form _ _ _ _ _ (Some unit_sphere) _ unit_sphere_valid). cbv zeta. cbn [ell_a ell_b semimajor_axis semiminor_axis unit_sphere].
  assert (EP : geodetic2ecef 0 0 0 None true = (6378137, 0, 0)).
  { rewrite (L_ecef.g2e_unfold None I). cbv zeta. unfold as_rad. replace (0 * PI / 180) with 0 by lra.
    rewrite sin_0, cos_0, !Rmult_0_r, hypot_x0. cbn [ell_a]. rewrite Rabs_right by lra. apply f_equal2; [apply f_equal2|]; lra. }
  assert (ED : eq_dir true 0 0 0 0 = (-1, 0, 0)).
  { unfold eq_dir, sight, as_rad. replace (0 * PI / 180) with 0 by lra.
    unfold vadd, vscale, east_axis, north_axis, up_axis, unit_normal. rewrite sin_0, cos_0. apply f_equal2; [apply f_equal2|]; lra. }
  rewrite EP, ED. unfold qf.
  match goal with |- context [Rlt_dec ?x 0] => replace x with 1 by field end.
  destruct (Rlt_dec 1 0); [lra|]. match goal with |- context [sqrt ?x] => replace x with 1 by field end. rewrite sqrt_1.
  match goal with |- context [Rlt_dec ?x 0] => replace x with 6378136 by field end.
  destruct (Rlt_dec 6378136 0); [lra|]. match goal with |- context [vadd ?p ?q] => destruct (vadd p q) as [[x y] z] end.
  destruct (ecef2geodetic x y z None true) as [[la lo] al]. exists la, lo, 6378136. split; [|reflexivity].
  reflexivity.
Qed.

(** Refuted the other way: when [ell] is larger than WGS-84 at the observer
    (Jupiter, Saturn, ...), every call returns NaN, whatever the direction. *)
Theorem C42_large_ellipsoid_always_nan : forall ell lat0 lon0 h0 az tilt deg, ell_ok ell -> 0 <= h0 ->
  (let '(x, y, z) := geodetic2ecef lat0 lon0 h0 None deg in
   x ^ 2 / ell_a ell ^ 2 + y ^ 2 / ell_a ell ^ 2 + z ^ 2 / ell_b ell ^ 2 < 1) ->
  lookAtSpheroid lat0 lon0 h0 az tilt ell deg = Ok None.
Proof.
  intros ell lat0 lon0 h0 az tilt deg Hok Hh Hin. pose proof (ell_pos ell Hok) as [Hb Ha].
  unfold lookAtSpheroid. destruct (Rlt_dec h0 0) as [Hn|_]; [lra|].
  rewrite (los_hit_form _ _ _ _ _ _ _ Hok). cbv zeta. set (D := eq_dir deg lat0 lon0 az tilt). set (P := geodetic2ecef lat0 lon0 h0 None deg) in *.
  assert (Out : qf (ell_a ell) (ell_b ell) P P < 1).
  { destruct P as [[x y] z]. unfold qf. replace (x * x) with (x ^ 2) by ring. replace (y * y) with (y ^ 2) by ring.
    replace (z * z) with (z ^ 2) by ring. exact Hin. }
  pose proof (qf_pos (ell_a ell) (ell_b ell) D ltac:(lra) Hb (sight_unit _ _ _ _)) as HA.
  destruct (quad_inside (qf (ell_a ell) (ell_b ell) D D) (qf (ell_a ell) (ell_b ell) P D) (qf (ell_a ell) (ell_b ell) P P - 1) HA ltac:(lra)) as [H1 H2].
  destruct (Rlt_dec _ 0) as [Hx|_]; [lra|]. destruct (Rlt_dec _ 0) as [_|Hx]; [reflexivity|lra].
Qed.

(** Array arguments: one negative altitude raises for the whole call; otherwise
    every element gets the scalar answer's distance (or NaN). *)
Definition los_dist (r : option vec3) : option R := match r with None => None | Some (_, _, d) => Some d end.
Theorem C42_array_elementwise : forall obs ell deg,
  match lookAtSpheroid_array obs ell deg with
  | Raise e => e = ValueError /\ exists lat0 lon0 h0 az tilt, In (lat0, lon0, h0, az, tilt) obs /\ h0 < 0
  | Ok rs => Forall (fun '(_, _, h0, _, _) => 0 <= h0) obs /\
      map (fun r => Ok (los_dist r)) rs
      = map (fun '(lat0, lon0, h0, az, tilt) =>
          match lookAtSpheroid lat0 lon0 h0 az tilt ell deg with Ok r => Ok (los_dist r) | Raise e => Raise e end) obs
  end.
Proof.
  intros obs ell deg. unfold lookAtSpheroid_array. destruct (any_negative _) eqn:E.
  - split; [reflexivity|]. unfold any_negative in E. apply existsb_exists in E. destruct E as (h & Hin & Hh).
    apply in_map_iff in Hin. destruct Hin as ([[[[la lo] h'] az] ti] & <- & Hin). exists la, lo, h', az, ti.
    split; [exact Hin|]. destruct (Rlt_dec h' 0); [assumption|discriminate].
  - assert (F : Forall (fun '(_, _, h0, _, _) => 0 <= h0) obs).
    { apply Forall_forall. intros [[[[la lo] h'] az] ti] Hin. destruct (Rle_lt_dec 0 h') as [H|H]; [exact H|exfalso].
      assert (X : any_negative (map (fun '(_, _, h0, _, _) => h0) obs) = true); [|congruence].
      unfold any_negative. apply existsb_exists. exists h'. split; [apply in_map_iff; exists (la, lo, h', az, ti); auto|].
      destruct (Rlt_dec h' 0); [reflexivity|contradiction]. }
    split; [exact F|]. rewrite map_map. apply map_ext_in. intros [[[[la lo] h'] az] ti] Hin.
    rewrite Forall_forall in F. specialize (F _ Hin). cbn in F. unfold lookAtSpheroid. destruct (Rlt_dec h' 0); [lra|].
    destruct (los_hit la lo h' az ti ell deg) as [[d [[x y] z]]|]; [|reflexivity].
    destruct (ecef2geodetic_lane x y z None deg) as [[? ?] ?], (ecef2geodetic x y z None deg) as [[? ?] ?]. reflexivity.
Qed.

Example C42_hypotheses_met : ell_ok None /\ 0 <= 400000 /\ - quarter true < 42 < quarter true /\
  - half true < -71 <= half true /\ PI / 2 <= as_rad true 120 <= PI /\
  exists lat lon d, lookAtSpheroid 42 (-71) 400000 30 0 None true = Ok (Some (lat, lon, d)) /\ d = 400000.
Proof.
  pose proof PI_RGT_0. unfold as_rad. repeat split; try (unfold quarter, half; lra); try lra.
  exists 42, (-71), 400000. split; [|reflexivity]. apply C42_nadir; unfold quarter, half; lra.
Qed.
