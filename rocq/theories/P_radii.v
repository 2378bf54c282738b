(** Properties C27 (utilities), C32-C34 (radii), C52 (ellipsoid construction),
    C57 (fallback math), C60 (ell = None). *)
From Coq Require Import Lia Psatz.
From Coquelicot Require Import Coquelicot.
From Verif Require Import PyMath M_ellipsoid M_ecef M_rcurve M_rsphere M_utils Spec.
From Verif Require M_spherical L_PyMath L_ell L_rcurve L_rsphere L_utils.
Open Scope R_scope.

(** ** C27 *)
Theorem C27_cart_pol_cart : forall x y, let '(t, r) := cart2pol x y in
  pol2cart t r = (x, y) /\ - PI < t <= PI /\ 0 <= r.
Proof.
  intros. exact (conj (L_utils.pol_cart_pol x y) (conj (L_PyMath.atan2_range y x) (L_PyMath.hypot_nonneg x y))).
Qed.
Theorem C27_pol_cart_pol : forall t r, 0 < r -> - PI < t <= PI ->
  let '(x, y) := pol2cart t r in cart2pol x y = (t, r).
Proof. exact L_utils.cart_pol_cart. Qed.
Theorem C27_cart_sph_cart : forall x y z, let '(az, el, r) := cart2sph x y z in
  sph2cart az el r = (x, y, z).
Proof. exact L_utils.sph_cart_sph. Qed.
Theorem C27_cart2sph_ranges : forall x y z, let '(az, el, r) := cart2sph x y z in
  - PI < az <= PI /\ - PI / 2 <= el <= PI / 2 /\ r = vnorm (x, y, z).
Proof. exact L_utils.cart2sph_ranges. Qed.
Theorem C27_sph_cart_sph : forall az el r, 0 < r -> - PI < az <= PI -> - PI / 2 < el < PI / 2 ->
  let '(x, y, z) := sph2cart az el r in cart2sph x y z = (az, el, r).
Proof. exact L_utils.cart_sph_cart. Qed.
Example C27_hypotheses_met : 0 < 2 /\ - PI < 1 <= PI /\ - PI / 2 < 1 < PI / 2.
Proof. pose proof PI2_3_2. lra. Qed.

(** ** C32 *)
Theorem C32_parallel_is_axis_distance : forall ell lat lon deg, ell_ok ell ->
  - quarter deg <= lat <= quarter deg ->
  let '(x, y, _) := geodetic2ecef lat lon 0 ell deg in
  parallel lat ell deg = sqrt (x ^ 2 + y ^ 2).
Proof. intros. now apply L_rcurve.parallel_axis. Qed.
Theorem C32_geocentric_radius_is_norm : forall ell lat lon deg, ell_ok ell ->
  geocentric_radius lat ell deg = vnorm (geodetic2ecef lat lon 0 ell deg).
Proof. intros. now apply L_rcurve.geocentric_radius_norm. Qed.
Theorem C32_transverse_reaches_axis : forall ell lat lon deg, ell_ok ell ->
  exists z0, vsub (geodetic2ecef lat lon 0 ell deg)
    (vscale (transverse lat ell deg) (unit_normal (as_rad deg lat) (as_rad deg lon))) = (0, 0, z0).
Proof. intros. now apply L_rcurve.transverse_to_axis. Qed.
(** The velocity of the surface point per radian of latitude is
    [meridian] times North (at altitude h: [meridian + h]); per radian of
    longitude it is [parallel] times East. *)
Theorem C32_meridian_is_latitude_speed : forall ell phi lam h, ell_ok ell ->
  let '(n1, n2, n3) := north_axis phi lam in
  is_derive (fun t => fst (fst (geodetic2ecef t lam h ell false))) phi ((meridian phi ell false + h) * n1) /\
  is_derive (fun t => snd (fst (geodetic2ecef t lam h ell false))) phi ((meridian phi ell false + h) * n2) /\
  is_derive (fun t => snd (geodetic2ecef t lam h ell false)) phi ((meridian phi ell false + h) * n3).
Proof. intros ell phi lam h H. exact (L_rcurve.D_lat ell H phi lam h). Qed.
Theorem C32_parallel_is_longitude_speed : forall ell phi lam h, ell_ok ell ->
  let '(e1, e2, e3) := east_axis phi lam in
  is_derive (fun t => fst (fst (geodetic2ecef phi t h ell false))) lam ((parallel phi ell false + h * cos phi) * e1) /\
  is_derive (fun t => snd (fst (geodetic2ecef phi t h ell false))) lam ((parallel phi ell false + h * cos phi) * e2) /\
  is_derive (fun t => snd (geodetic2ecef phi t h ell false)) lam ((parallel phi ell false + h * cos phi) * e3).
Proof. intros ell phi lam h H. exact (L_rcurve.D_lon ell H phi lam h). Qed.
Theorem C32_degrees : forall ell lat, 
  meridian lat ell true = meridian (lat * PI / 180) ell false /\
  parallel lat ell true = parallel (lat * PI / 180) ell false /\
  transverse lat ell true = transverse (lat * PI / 180) ell false /\
  geocentric_radius lat ell true = geocentric_radius (lat * PI / 180) ell false.
Proof. intros. repeat split. Qed.
Example C32_hypotheses_met : ell_ok (Some L_ell.ex_ell) /\ - quarter true <= 45 <= quarter true.
Proof. split; [exact L_ell.ex_ell_ok|unfold quarter; lra]. Qed.

(** ** C33 *)
Theorem C33_bounds : forall ell lat deg, ell_ok ell ->
  let a := ell_a ell in let b := ell_b ell in
  0 < meridian lat ell deg /\
  b ^ 2 / a <= meridian lat ell deg /\
  meridian lat ell deg <= transverse lat ell deg /\
  a <= transverse lat ell deg /\
  transverse lat ell deg <= a ^ 2 / b.
Proof.
  intros. repeat split; [now apply L_rcurve.meridian_pos | now apply L_rcurve.meridian_lower
    | now apply L_rcurve.meridian_le_transverse | now apply L_rcurve.transverse_lower
    | now apply L_rcurve.transverse_upper].
Qed.
Theorem C33_equality_only_at_poles : forall ell lat deg, ell_ok ell -> ell_b ell < ell_a ell ->
  (meridian lat ell deg = transverse lat ell deg <-> cos (as_rad deg lat) = 0).
Proof. intros. rewrite L_ell.as_rad_rad_in. now apply L_rcurve.meridian_eq_transverse. Qed.
Example C33_hypotheses_met : ell_ok (Some L_ell.ex_ell) /\ ell_b (Some L_ell.ex_ell) < ell_a (Some L_ell.ex_ell).
Proof. split; [exact L_ell.ex_ell_ok|cbn; lra]. Qed.

(** ** C34 *)
(** The textbook area of the spheroid with profile r = a cos t, z = b sin t,
    integral of 2 pi r ds, equals 4 pi R^2 for R = authalic(ell). *)
Theorem C34_authalic_equal_area : forall ell, ell_ok ell ->
  let a := ell_a ell in let b := ell_b ell in
  is_RInt (fun t => 2 * PI * (a * cos t) * sqrt ((a * sin t) ^ 2 + (b * cos t) ^ 2))
    (- PI / 2) (PI / 2) (4 * PI * authalic ell ^ 2).
Proof.
  intros ell H a b. destruct (L_ell.ell_pos ell H) as [Hb Hab].
  destruct (Rle_lt_or_eq_dec _ _ Hab) as [Hlt|Heq].
  - exact (L_rsphere.spheroid_area_oblate ell H Hlt).
  - exact (L_rsphere.spheroid_area_sphere ell H Heq).
Qed.
(** Volume 4/3 pi R^3 of the eqavol sphere against 4/3 pi a^2 b. *)
Theorem C34_eqavol_volume : forall ell, ell_ok ell ->
  let a := ell_a ell in let b := ell_b ell in let f := (a - b) / a in
  0 <= eqavol ell ^ 3 - a ^ 2 * b <= 5 / 27 * f ^ 3 * a ^ 3.
Proof. intros. now apply L_rsphere.eqavol_volume. Qed.
Theorem C34_triaxial_norm_exact_volume : forall ell, ell_ok ell ->
  exists r, triaxial ell "norm" = Ok r /\ r ^ 3 = ell_a ell ^ 2 * ell_b ell.
Proof.
  intros ell H. destruct (L_ell.ell_pos ell H) as [Hb Hab]. eexists. split; [reflexivity|].
  rewrite L_ell.resolve_a, L_ell.resolve_b. now apply L_rsphere.triaxial_norm_cube.
Qed.
Theorem C34_radii_between_axes : forall ell, ell_ok ell ->
  let a := ell_a ell in let b := ell_b ell in
  b <= authalic ell <= a /\ b <= eqavol ell <= a /\ b <= rectifying ell <= a /\
  (forall m, In m ["mean"; "norm"]%string ->
     (exists r, triaxial ell m = Ok r /\ b <= r <= a) /\
     (exists r, biaxial ell m = Ok r /\ b <= r <= a) /\
     (forall lat deg, exists r, curve lat ell deg m = Ok r /\ b ^ 2 / a <= r <= a ^ 2 / b)).
Proof.
  intros ell H a b. destruct (L_ell.ell_pos ell H) as [Hb Hab]. fold a b in Hb, Hab.
  split; [now apply L_rsphere.authalic_bounds|]. split; [now apply L_rsphere.eqavol_bounds|].
  split; [now apply L_rsphere.rectifying_bounds|].
  assert (HC : forall lat, b^2/a <= meridian lat ell false /\ meridian lat ell false <= transverse lat ell false
     /\ transverse lat ell false <= a^2/b /\ 0 < meridian lat ell false).
  { intros. repeat split; [now apply L_rcurve.meridian_lower|now apply L_rcurve.meridian_le_transverse
     |now apply L_rcurve.transverse_upper|now apply L_rcurve.meridian_pos]. }
  intros m [<-|[<-|[]]].
  - repeat split.
    + eexists; split; [reflexivity|]. rewrite L_ell.resolve_a, L_ell.resolve_b. fold a b. lra.
    + eexists; split; [reflexivity|]. rewrite L_ell.resolve_a, L_ell.resolve_b. fold a b. lra.
    + intros. eexists; split; [reflexivity|]. specialize (HC (rad_in deg lat)). lra.
  - repeat split.
    + eexists; split; [reflexivity|]. rewrite L_ell.resolve_a, L_ell.resolve_b. fold a b.
      now apply L_rsphere.triaxial_norm_cube.
    + eexists; split; [reflexivity|]. rewrite L_ell.resolve_a, L_ell.resolve_b. fold a b.
      now apply L_rsphere.sqrt_ab_bounds.
    + intros. eexists; split; [reflexivity|]. destruct (HC (rad_in deg lat)) as (H1 & H2 & H3 & H4).
      rewrite Rmult_comm.
      destruct (L_rsphere.sqrt_ab_bounds _ _ H4 H2). split; lra.
Qed.
Theorem C34_unknown_method_raises : forall ell lat deg m, ~ In m ["mean"; "norm"]%string ->
  triaxial ell m = Raise ValueError /\ biaxial ell m = Raise ValueError /\
  curve lat ell deg m = Raise ValueError.
Proof.
  intros ell lat deg m Hm. unfold triaxial, biaxial, curve.
  destruct (String.eqb_spec m "mean"); [subst; cbn in Hm; tauto|].
  destruct (String.eqb_spec m "norm"); [subst; cbn in Hm; tauto|]. repeat split.
Qed.
Example C34_hypotheses_met : ell_ok None /\ ell_ok (Some L_ell.ex_ell) /\ ~ In "median"%string ["mean"; "norm"]%string.
Proof. split; [exact I|]. split; [exact L_ell.ex_ell_ok|]. cbn. intros [E|[E|[]]]; discriminate. Qed.

(** ** C52 *)
Theorem C52_constructed_is_consistent : forall a b name model e, 0 < a -> 0 < b ->
  Ellipsoid_init a b name model None None None = Ok e ->
  b <= a /\ valid_ell e /\ semimajor_axis e = a /\ semiminor_axis e = b /\
  ell_name e = name /\ ell_model e = model.
Proof.
  intros a b name model e Ha Hb E. destruct (Rle_dec b a) as [Hle|Hgt].
  - destruct (L_ell.init_valid a b name model Hb Hle) as (e' & E' & K). rewrite E' in E.
    injection E as <-. tauto.
  - rewrite (L_utils.init_prolate a b name model Ha) in E by lra. discriminate.
Qed.
Theorem C52_oblate_accepted : forall a b name model, 0 < b -> b <= a ->
  exists e, Ellipsoid_init a b name model None None None = Ok e.
Proof. intros a b n m H1 H2. destruct (L_ell.init_valid a b n m H1 H2) as (e & E & _). eauto. Qed.
Theorem C52_prolate_rejected : forall a b name model, 0 < a -> a < b ->
  Ellipsoid_init a b name model None None None = Raise AssertionError.
Proof. exact L_utils.init_prolate. Qed.
Theorem C52_every_named_model_constructs : forall name, In name (map fst models) ->
  exists pname a b e, In (name, (pname, a, b)) models /\ from_name name = Ok e /\ valid_ell e /\
    semimajor_axis e = a /\ semiminor_axis e = b /\ ell_model e = name /\ ell_name e = pname.
Proof. exact L_utils.from_name_ok. Qed.
Theorem C52_unknown_name_raises : forall name, ~ In name (map fst models) ->
  from_name name = Raise KeyError.
Proof. intros name H. unfold from_name. now rewrite L_utils.lookup_none. Qed.
Example C52_hypotheses_met : In "wgs84"%string (map fst models) /\ ~ In "flat"%string (map fst models).
Proof.
  split; [cbn; tauto|]. cbn. intros E.
  repeat (destruct E as [E|E]; [discriminate|]). exact E.
Qed.

(** ** C57 *)
Theorem C57_linspace : forall start stop num l, (1 < num)%Z -> linspace start stop num = Ok l ->
  Z.of_nat (List.length l) = num /\
  nth 0 l 0 = start /\ nth (List.length l - 1) l 0 = stop /\
  (forall i, (i < List.length l)%nat ->
     nth i l 0 = start + INR i / INR (List.length l - 1) * (stop - start)).
Proof.
  intros start stop num l Hn E. destruct (L_utils.linspace_spec start stop num l Hn E) as [HL HN].
  assert (0 < INR (List.length l - 1)) by (apply lt_0_INR; lia).
  split; [exact HL|]. split; [|split; [|exact HN]].
  - rewrite HN by lia. cbn [INR]. field. lra.
  - rewrite HN by lia. field. lra.
Qed.
Theorem C57_linspace_never_fails : forall start stop num, num <> 1%Z ->
  exists l, linspace start stop num = Ok l.
Proof. intros. unfold linspace. destruct (Z.eqb_spec (num - 1) 0); [lia|]. eauto. Qed.
(** Finding: one sample is an error, where numpy.linspace returns [start]. *)
Theorem C57_linspace_one_raises : forall start stop, linspace start stop 1 = Raise ZeroDivisionError.
Proof. reflexivity. Qed.
Theorem C57_sign : forall x, (x < 0 -> sign_fallback x = -1) /\ (x = 0 -> sign_fallback x = 0) /\
  (0 < x -> sign_fallback x = 1).
Proof. exact L_utils.sign_spec. Qed.
Theorem C57_cube_root : forall x, cube_root x ^ 3 = x.
Proof. exact L_utils.cube_root_cube. Qed.
(** numpy.cbrt, used when NumPy is installed, computes the same. *)
Theorem C57_cube_root_numpy : forall x, M_spherical.cube_root x = M_utils.cube_root x.
Proof.
  intros x. unfold M_spherical.cube_root, M_utils.cube_root, py_pow_third.
  destruct (Rlt_dec x 0); destruct (Rlt_dec 0 x); try lra; try (destruct (Req_EM_T (- x) 0); [lra|]); try (destruct (Req_EM_T x 0)); try lra; reflexivity.
Qed.
