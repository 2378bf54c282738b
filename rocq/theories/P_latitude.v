(** Properties C35-C38 and C58: auxiliary latitudes. *)
From Coq Require Import Lia Psatz.
From Coquelicot Require Import Coquelicot.
From Verif Require Import PyMath M_ellipsoid M_ecef M_rcurve M_latitude Spec.
From Verif Require L_PyMath L_ell L_aer L_rcurve L_utils L_latitude L_latitude2 L_latitude3 L_latitude4.
Open Scope R_scope.

(** ** C35: round trips *)
Theorem C35_parametric_roundtrip : forall ell lat deg, ell_ok ell -> - quarter deg <= lat <= quarter deg ->
  parametric2geodetic (geodetic2parametric lat ell deg) ell deg = lat /\
  geodetic2parametric (parametric2geodetic lat ell deg) ell deg = lat.
Proof. intros. split; [now apply L_latitude.parametric_rt1|now apply L_latitude.parametric_rt2]. Qed.
(** Parametric latitude means what it should: the surface point is
    (a cos beta, b sin beta). *)
Theorem C35_parametric_meaning : forall ell lat lon, ell_ok ell -> - PI / 2 <= lat <= PI / 2 ->
  let beta := geodetic2parametric lat ell false in
  let '(x, y, z) := geodetic2ecef lat lon 0 ell false in
  sqrt (x ^ 2 + y ^ 2) = ell_a ell * cos beta /\ z = ell_b ell * sin beta.
Proof. intros ell lat lon H Hl. exact (L_latitude.parametric_is_angle ell H lat lon Hl). Qed.
Theorem C35_geocentric_roundtrip_surface_partial : forall ell lat deg, ell_ok ell ->
  - quarter deg <= lat <= quarter deg ->
  geocentric2geodetic (geodetic2geocentric lat 0 ell deg) 0 ell deg = lat /\
  geodetic2geocentric (geocentric2geodetic lat 0 ell deg) 0 ell deg = lat.
Proof. intros. split; [now apply L_latitude.geocentric_rt0_1|now apply L_latitude.geocentric_rt0_2]. Qed.
(** Off the surface the pair is never an inverse on an oblate body. *)
Theorem C35_geocentric_roundtrip_refuted : forall ell lat h deg, ell_ok ell -> ell_b ell < ell_a ell ->
  0 < h -> 0 < lat < quarter deg ->
  geocentric2geodetic (geodetic2geocentric lat h ell deg) h ell deg <> lat.
Proof. intros ell lat h deg H. exact (L_latitude.geocentric_rt_refuted ell H lat h deg). Qed.
Example C35_hypotheses_met : ell_ok (Some L_ell.ex_ell) /\ ell_b (Some L_ell.ex_ell) < ell_a (Some L_ell.ex_ell)
  /\ 0 < 45 < quarter true.
Proof. split; [exact L_ell.ex_ell_ok|]. cbn. lra. Qed.

(** ** C36: geodetic2geocentric is the angle of the ECEF point *)
Theorem C36_geocentric_is_ecef_angle : forall ell lat lon h deg, ell_ok ell ->
  - quarter deg <= lat <= quarter deg -> - (ell_b ell ^ 2 / ell_a ell) < h ->
  let '(x, y, z) := geodetic2ecef lat lon h ell deg in
  as_rad deg (geodetic2geocentric lat h ell deg) = atan2 z (sqrt (x ^ 2 + y ^ 2)).
Proof.
  intros ell lat lon h deg H Hl Hh. pose proof (L_latitude.geodetic2geocentric_ecef ell H lat lon h deg Hl Hh) as E.
  destruct (geodetic2ecef lat lon h ell deg) as [[x y] z]. rewrite E.
  rewrite L_ell.as_rad_rad_in. apply L_PyMath.rad_in_deg_out.
Qed.
Theorem C36_direction : forall ell lat lon h deg, ell_ok ell ->
  - quarter deg <= lat <= quarter deg -> - (ell_b ell ^ 2 / ell_a ell) < h ->
  let psi := as_rad deg (geodetic2geocentric lat h ell deg) in
  let '(x, y, z) := geodetic2ecef lat lon h ell deg in
  let d := vnorm (x, y, z) in z = d * sin psi /\ sqrt (x ^ 2 + y ^ 2) = d * cos psi.
Proof.
  intros ell lat lon h deg H Hl Hh. pose proof (C36_geocentric_is_ecef_angle ell lat lon h deg H Hl Hh) as E.
  cbv zeta in *. destruct (geodetic2ecef lat lon h ell deg) as [[x y] z]. rewrite E.
  assert (V : vnorm (x, y, z) = hypot (sqrt (x ^ 2 + y ^ 2)) z).
  { unfold vnorm, vdot, hypot. f_equal. rewrite L_PyMath.pow2_sqrt' by apply L_PyMath.sumsq_nonneg. ring. }
  rewrite V. split; symmetry; [apply L_PyMath.hypot_sin_atan2|apply L_PyMath.hypot_cos_atan2].
Qed.
Example C36_hypotheses_met : ell_ok (Some L_ell.ex_ell) /\ - quarter true <= -30 <= quarter true
  /\ - (ell_b (Some L_ell.ex_ell) ^ 2 / ell_a (Some L_ell.ex_ell)) < 1000.
Proof. split; [exact L_ell.ex_ell_ok|]. cbn. lra. Qed.

(** ** C37: odd, fixing equator and poles, increasing *)
Theorem C37_odd_fixing : forall ell h deg, ell_ok ell -> - (ell_b ell ^ 4 / ell_a ell ^ 3) < h ->
  let Q := quarter deg in
  odd_fixing Q (fun x => geodetic2geocentric x h ell deg) /\
  odd_fixing Q (fun x => geocentric2geodetic x h ell deg) /\
  odd_fixing Q (fun x => geodetic2parametric x ell deg) /\
  odd_fixing Q (fun x => parametric2geodetic x ell deg) /\
  odd_fixing Q (fun x => geodetic2conformal x ell deg) /\
  odd_fixing Q (fun x => conformal2geodetic x ell deg) /\
  odd_fixing Q (fun x => geodetic2rectifying x ell deg) /\
  odd_fixing Q (fun x => rectifying2geodetic x ell deg) /\
  odd_fixing Q (fun x => geodetic2authalic x ell deg) /\
  odd_fixing Q (fun x => authalic2geodetic x ell deg).
Proof.
  intros ell h deg H Hh Q.
  destruct (L_latitude2.geocentric_props ell H h deg Hh) as (A & _ & B & _).
  destruct (L_latitude2.parametric_props ell H deg) as (C & _ & D & _).
  exact (conj A (conj B (conj C (conj D
    (conj (proj1 (L_latitude3.conformal_props ell H deg))
    (conj (proj1 (L_latitude2.conformal2_props ell H deg))
    (conj (proj1 (L_latitude2.rectifying_props ell H deg))
    (conj (proj1 (L_latitude2.rectifying2_props ell H deg))
    (conj (proj1 (L_latitude2.authalic_props ell H deg))
          (proj1 (L_latitude2.authalic2_props ell H deg))))))))))).
Qed.
Theorem C37_geoc2geod_odd_fixing : forall ell r deg, ell_ok ell ->
  odd_fixing (quarter deg) (fun x => geoc2geod x r ell deg).
Proof. intros ell r deg H. exact (proj1 (L_latitude2.geoc2geod_props ell H r deg)). Qed.
(** The closed-form maps are increasing on every ellipsoid. *)
Theorem C37_closed_forms_increasing : forall ell h deg, ell_ok ell -> - (ell_b ell ^ 4 / ell_a ell ^ 3) < h ->
  let Q := quarter deg in
  increasing_on (- Q) Q (fun x => geodetic2geocentric x h ell deg) /\
  increasing_on (- Q) Q (fun x => geocentric2geodetic x h ell deg) /\
  increasing_on (- Q) Q (fun x => geodetic2parametric x ell deg) /\
  increasing_on (- Q) Q (fun x => parametric2geodetic x ell deg) /\
  increasing_on (- Q) Q (fun x => geodetic2conformal x ell deg).
Proof.
  intros ell h deg H Hh Q.
  destruct (L_latitude2.geocentric_props ell H h deg Hh) as (_ & A & _ & B).
  destruct (L_latitude2.parametric_props ell H deg) as (_ & C & _ & D).
  exact (conj A (conj B (conj C (conj D (proj2 (L_latitude3.conformal_props ell H deg)))))).
Qed.
(** The truncated series are increasing for flattening up to 1/4. *)
Theorem C37_series_increasing : forall ell deg, ell_ok ell -> 3 * ell_a ell <= 4 * ell_b ell ->
  let Q := quarter deg in
  increasing_on (- Q) Q (fun x => conformal2geodetic x ell deg) /\
  increasing_on (- Q) Q (fun x => geodetic2rectifying x ell deg) /\
  increasing_on (- Q) Q (fun x => rectifying2geodetic x ell deg) /\
  increasing_on (- Q) Q (fun x => geodetic2authalic x ell deg) /\
  increasing_on (- Q) Q (fun x => authalic2geodetic x ell deg).
Proof.
  intros ell deg H Hf Q.
  exact (conj (proj2 (L_latitude2.conformal2_props ell H deg) Hf)
    (conj (proj2 (L_latitude2.rectifying_props ell H deg) Hf)
    (conj (proj2 (L_latitude2.rectifying2_props ell H deg) Hf)
    (conj (proj2 (L_latitude2.authalic_props ell H deg) Hf)
          (proj2 (L_latitude2.authalic2_props ell H deg) Hf))))).
Qed.
Theorem C37_geoc2geod_increasing : forall ell r deg, ell_ok ell ->
  ell_b ell <= r -> 4 * ell_a ell <= 5 * ell_b ell ->
  increasing_on (- quarter deg) (quarter deg) (fun x => geoc2geod x r ell deg).
Proof. intros ell r deg H Hr Hf. exact (proj2 (L_latitude2.geoc2geod_props ell H r deg) (conj Hr Hf)). Qed.
(** Every built-in model is flat enough for all of the above. *)
Theorem C37_all_models_covered : forall name e, from_name name = Ok e ->
  ell_ok (Some e) /\ 3 * ell_a (Some e) <= 4 * ell_b (Some e) /\ 4 * ell_a (Some e) <= 5 * ell_b (Some e).
Proof.
  intros name e He. destruct (L_utils.from_name_flat name e He) as (A & B). split; [exact A|].
  destruct A as (A1 & A2 & _). cbn. lra.
Qed.
Example C37_hypotheses_met : ell_ok None /\ 3 * ell_a None <= 4 * ell_b None /\ 4 * ell_a None <= 5 * ell_b None
  /\ - (ell_b None ^ 4 / ell_a None ^ 3) < -400.
Proof.
  split; [exact I|]. cbn [ell_a ell_b]. repeat split; try lra.
Qed.

(** ** C38: isometric and conformal latitude *)
(** The textbook definition: isometric latitude is 0 at the equator and grows
    at the rate meridian / parallel; COS_EPS is the code's pole cut-off. *)
Theorem C38_isometric_definition : forall ell, ell_ok ell ->
  exists psi : R -> R, psi 0 = 0 /\
  (forall t, - PI / 2 < t < PI / 2 -> is_derive psi t (meridian t ell false / parallel t ell false)) /\
  (forall x deg, - quarter deg <= x <= quarter deg -> 1 / 1000000000 < cos (as_rad deg x) ->
     geodetic2isometric x ell deg = Fin (deg_out deg (psi (as_rad deg x)))).
Proof.
  intros ell H. exists (L_latitude3.iso_expr (eccentricity (resolve_ellipsoid ell))).
  refine (conj _ (conj _ _)).
  - exact (L_latitude3.iso_0 ell H).
  - intros t Ht. apply (L_latitude3.D_iso ell H). apply cos_gt_0; lra.
  - intros x deg Hx Hc. rewrite L_ell.as_rad_rad_in in *. now apply L_latitude3.isometric_away.
Qed.
Theorem C38_isometric_poles : forall ell deg, ell_ok ell ->
  geodetic2isometric (quarter deg) ell deg = PInf /\ geodetic2isometric (- quarter deg) ell deg = MInf.
Proof. intros ell deg H. exact (L_latitude3.isometric_pole ell deg). Qed.
(** conformal = Gudermannian of isometric, wherever isometric is finite *)
Theorem C38_conformal_gudermannian : forall ell x deg, ell_ok ell -> - quarter deg <= x <= quarter deg ->
  match geodetic2isometric x ell deg with
  | Fin psi => as_rad deg (geodetic2conformal x ell deg) = 2 * atan (exp (as_rad deg psi)) - PI / 2
  | _ => Rabs (cos (as_rad deg x)) <= 1 / 1000000000
  end.
Proof.
  intros ell x deg H Hx. pose proof (L_latitude3.isometric_conformal ell H x deg Hx) as E.
  destruct (geodetic2isometric x ell deg) as [psi| |].
  - rewrite (L_ell.as_rad_rad_in deg psi), L_ell.as_rad_rad_in, E. apply L_PyMath.rad_in_deg_out.
  - rewrite L_ell.as_rad_rad_in. exact E.
  - rewrite L_ell.as_rad_rad_in. exact E.
Qed.
Theorem C38_conformal_range : forall ell x deg, ell_ok ell -> - quarter deg <= x <= quarter deg ->
  - quarter deg <= geodetic2conformal x ell deg <= quarter deg.
Proof. intros ell x deg H. exact (L_latitude3.conformal_range ell H x deg). Qed.
(** isometric2geodetic and conformal2geodetic agree *)
Theorem C38_inverse_paths_agree : forall ell x deg, ell_ok ell -> - quarter deg <= x <= quarter deg ->
  1 / 1000000000 < cos (as_rad deg x) \/ x = quarter deg \/ x = - quarter deg ->
  isometric2geodetic (geodetic2isometric x ell deg) ell deg
  = conformal2geodetic (geodetic2conformal x ell deg) ell deg.
Proof.
  intros ell x deg H Hx Hc. rewrite L_ell.as_rad_rad_in in Hc.
  now apply L_latitude3.isometric2geodetic_conformal.
Qed.
(** Array inputs: element-wise unless some element is +90 degrees ... *)
Theorem C38_conformal_array_partial : forall ell xs deg, ell_ok ell ->
  (forall x, In x xs -> - quarter deg <= x < quarter deg) ->
  geodetic2conformal_array xs ell deg = inl (map (fun x => geodetic2conformal x ell deg) xs).
Proof.
  intros ell xs deg H Hx. apply L_latitude3.conformal_array_ok.
  intros x Hin. specialize (Hx x Hin). lra.
Qed.
(** ... in which case the whole array collapses to one number. *)
Theorem C38_conformal_array_refuted : forall ell xs deg, In (quarter deg) xs ->
  geodetic2conformal_array xs ell deg = inr (quarter deg).
Proof. intros ell xs deg. exact (L_latitude3.conformal_array_bad ell xs deg). Qed.
Example C38_hypotheses_met : ell_ok (Some L_ell.ex_ell) /\ - quarter false <= 0 <= quarter false
  /\ 1 / 1000000000 < cos (as_rad false 0).
Proof. split; [exact L_ell.ex_ell_ok|]. cbn. rewrite cos_0. pose proof PI_RGT_0. lra. Qed.

(** ** C58: accuracy of geoc2geod at surface points.
    [geodetic2geocentric lat 0] and [geocentric_radius lat] are the geocentric
    latitude and distance of the surface point at geodetic latitude [lat]
    (C36, C32). *)
Theorem C58_first_order_partial : forall ell lat, ell_ok ell ->
  let f := (ell_a ell - ell_b ell) / ell_a ell in f <= 1 / 10 ->
  - PI / 2 <= lat <= PI / 2 ->
  Rabs (geoc2geod (geodetic2geocentric lat 0 ell false) (geocentric_radius lat ell false) ell false - lat)
  <= 5 * f ^ 2.
Proof. intros ell lat H f Hf. exact (L_latitude4.first_order ell H Hf lat). Qed.
(** On every oblate body with f <= 1/10 there is a surface point (geocentric
    latitude 22.5 degrees) where the error is at least f^2/4. *)
Theorem C58_second_order_error : forall ell, ell_ok ell ->
  let f := (ell_a ell - ell_b ell) / ell_a ell in f <= 1 / 10 ->
  exists lat, 0 <= lat <= PI / 2 /\ geodetic2geocentric lat 0 ell false = PI / 8 /\
  f ^ 2 / 4 <= geoc2geod (geodetic2geocentric lat 0 ell false) (geocentric_radius lat ell false) ell false - lat.
Proof.
  intros ell H f Hf. pose proof PI_RGT_0 as HPI.
  assert (Hq : - quarter false <= PI/8 <= quarter false) by (cbn; lra).
  exists (geocentric2geodetic (PI/8) 0 ell false).
  assert (E : geodetic2geocentric (geocentric2geodetic (PI / 8) 0 ell false) 0 ell false = PI / 8)
    by now apply L_latitude.geocentric_rt0_2.
  assert (B : 0 <= geocentric2geodetic (PI/8) 0 ell false <= PI/2).
  { assert (Hh : - (ell_b ell ^ 4 / ell_a ell ^ 3) < 0).
    { destruct (L_ell.ell_pos ell H). assert (0 < ell_b ell ^ 4 / ell_a ell ^ 3); [|lra].
      apply Rdiv_lt_0_compat; apply pow_lt; lra. }
    destruct (L_latitude2.geocentric_props ell H 0 false Hh) as (_ & _ & (_ & Z & P & _) & I). cbn in *.
    pose proof (I 0 (PI/8) ltac:(lra) ltac:(lra) ltac:(lra)).
    pose proof (I (PI/8) (PI/2) ltac:(lra) ltac:(lra) ltac:(lra)). cbv beta in *. lra. }
  split; [exact B|]. split; [exact E|]. rewrite E. now apply (L_latitude4.not_second_order ell H Hf).
Qed.
(** Hence no constant K makes the error O(f^3). *)
Theorem C58_third_order_refuted : ~ exists K, forall ell lat, ell_ok ell ->
  let f := (ell_a ell - ell_b ell) / ell_a ell in f <= 1 / 10 -> - PI / 2 <= lat <= PI / 2 ->
  Rabs (geoc2geod (geodetic2geocentric lat 0 ell false) (geocentric_radius lat ell false) ell false - lat)
  <= K * f ^ 3.
Proof.
  intros [K HK].
  pose (K' := Rmax K 1). assert (K1 : 1 <= K') by apply Rmax_r. assert (K2 : K <= K') by apply Rmax_l.
  pose (g := 1 / (10 * K')).
  assert (Hg : 0 < g <= 1/10).
  { unfold g. split; [apply Rdiv_lt_0_compat; lra|]. apply Rmult_le_compat_l; [lra|].
    apply Rinv_le_contravar; lra. }
  assert (Hgk : K' * g = 1/10) by (unfold g; field; lra).
  destruct (L_ell.init_valid 1 (1 - g) "" "") as (e & _ & Hv & Ea & Eb & _); [lra|lra|].
  assert (Hok : ell_ok (Some e)) by exact Hv.
  assert (Ef : (ell_a (Some e) - ell_b (Some e)) / ell_a (Some e) = g).
  { cbn [ell_a ell_b]. rewrite Ea, Eb. field. }
  destruct (C58_second_order_error (Some e) Hok) as (lat & Hl & _ & Hlow); [rewrite Ef; lra|].
  assert (Hl' : - PI/2 <= lat <= PI/2) by (pose proof PI_RGT_0; lra).
  specialize (HK (Some e) lat Hok). cbv zeta in HK. specialize (HK ltac:(rewrite Ef; lra) Hl').
  rewrite Ef in *. pose proof (Rle_abs (geoc2geod (geodetic2geocentric lat 0 (Some e) false)
    (geocentric_radius lat (Some e) false) (Some e) false - lat)).
  assert (g ^ 2 / 4 <= K * g ^ 3) by lra.
  assert (K * g ^ 3 <= K' * g ^ 3) by (apply Rmult_le_compat_r; [apply pow_le; lra|lra]).
  replace (K' * g ^ 3) with (K' * g * g ^ 2) in * by ring. rewrite Hgk in *. nra.
Qed.
Example C58_hypotheses_met : ell_ok None /\ (ell_a None - ell_b None) / ell_a None <= 1 / 10.
Proof. split; [exact I|]. cbn [ell_a ell_b]. lra. Qed.
