(** Isometric and conformal latitude; accuracy of geoc2geod. *)
From Coq Require Import Lia Psatz.
From Coquelicot Require Import Coquelicot.
From Verif Require Import PyMath L_PyMath M_ellipsoid M_ecef M_rcurve M_latitude Spec L_ell L_aer L_rcurve L_rsphere L_latitude L_latitude2.
Open Scope R_scope.

Section E.
Variables (ell : option Ellipsoid) (H : ell_ok ell).
Let a := ell_a ell.
Let b := ell_b ell.
Let Hb : 0 < b. Proof. apply (ell_pos ell H). Qed.
Let Hab : b <= a. Proof. apply (ell_pos ell H). Qed.
Let Ha : 0 < a. Proof. lra. Qed.
Let e := eccentricity (resolve_ellipsoid ell).
Let He2 : e ^ 2 = 1 - b ^ 2 / a ^ 2. Proof. apply (ell_e2 ell H). Qed.
Let He0 : 0 <= e. Proof. apply (ell_e_nonneg ell H). Qed.
Let He1 : e < 1. Proof. apply (ecc_lt1 ell H). Qed.

Definition iso_expr (e lat : R) : R := asinh (tan lat) - e * atanh (e * sin lat).

Lemma es_bound t : - 1 < e * sin t < 1.
Proof. pose proof (SIN_bound t). split; nra. Qed.
Lemma sin_open t : 0 < cos t -> -1 < sin t < 1.
Proof. intros Hc. pose proof (sc1 t). split; nra. Qed.
Lemma asinh_tan t : 0 < cos t -> asinh (tan t) = ln ((1 + sin t) / cos t).
Proof.
  intros Hc. unfold asinh. f_equal.
  replace (sqrt (tan t ^ 2 + 1)) with (/ cos t).
  - rewrite tan_is_sc. field. lra.
  - symmetry. apply sqrt_uniq; [left; now apply Rinv_0_lt_compat|].
    rewrite tan_is_sc. apply Rmult_eq_reg_r with (cos t * cos t); [|nra].
    replace (((sin t / cos t) ^ 2 + 1) * (cos t * cos t)) with (sin t * sin t + cos t * cos t) by (field; lra).
    rewrite sc1. field. lra.
Qed.
Lemma atanh_opp x : -1 < x < 1 -> atanh (- x) = - atanh x.
Proof.
  intros Hx. unfold atanh. replace ((1 + - x) / (1 - - x)) with (/ ((1 + x) / (1 - x))) by (field; lra).
  rewrite ln_Rinv; [ring|]. apply Rdiv_lt_0_compat; lra.
Qed.
Lemma iso_opp t : 0 < cos t -> iso_expr e (- t) = - iso_expr e t.
Proof.
  intros Hc. unfold iso_expr. rewrite !asinh_tan by (rewrite ?cos_neg; assumption).
  rewrite sin_neg, cos_neg. pose proof (es_bound t). pose proof (sin_open t Hc).
  replace (e * - sin t) with (- (e * sin t)) by ring. rewrite atanh_opp by assumption.
  replace ((1 + - sin t) / cos t) with (/ ((1 + sin t) / cos t)).
  - rewrite ln_Rinv; [ring|]. apply Rdiv_lt_0_compat; lra.
  - pose proof (sc1 t). apply Rmult_eq_reg_r with ((1 + sin t) * cos t); [|nra].
    transitivity (cos t * cos t); [field; lra|].
    transitivity ((1 + - sin t) * (1 + sin t)); [nra|field; lra].
Qed.
Lemma iso_0 : iso_expr e 0 = 0.
Proof.
  pose proof (iso_opp 0) as E. rewrite cos_0, Ropp_0 in E. specialize (E ltac:(lra)). lra.
Qed.
Lemma D_iso t : 0 < cos t -> is_derive (iso_expr e) t (meridian t ell false / parallel t ell false).
Proof.
  intros Hc.
  assert (HW := acbs_pos a b t Hb Hab). pose proof (W_sq a b t) as HW2.
  assert (Ev : meridian t ell false / parallel t ell false = b ^ 2 / ((a * cos t) ^ 2 + (b * sin t) ^ 2) / cos t).
  { unfold parallel. rewrite (meridian_transverse_ratio ell H), !(transverse_W ell H). cbn [rad_in]. fold a b.
    rewrite <- HW2. set (W := hypot _ _) in *. field. repeat split; lra. }
  rewrite Ev. clear Ev.
  apply is_derive_ext_loc with (fun t => ln ((1 + sin t) / cos t) - e * atanh (e * sin t)).
  { assert (L : locally t (fun u => 0 < cos u)).
    { apply (open_comp cos (fun x => 0 < x)).
      - intros. apply (ex_derive_continuous cos). eexists. apply D_cos.
      - apply open_gt.
      - assumption. }
    revert L. apply filter_imp. intros u Hu. unfold iso_expr. now rewrite asinh_tan. }
  pose proof (es_bound t) as Hes. pose proof (sin_open t Hc) as Hs. unfold atanh.
  assert (P1 : 0 < (1 + sin t) / cos t) by (apply Rdiv_lt_0_compat; lra).
  assert (P2 : 0 < (1 + e * sin t) / (1 - e * sin t)) by (apply Rdiv_lt_0_compat; lra).
  auto_derive.
  - repeat split; try lra; assumption.
  - assert (a ^ 2 * (1 - (e * sin t)^2) = (a * cos t) ^ 2 + (b * sin t) ^ 2) as Q.
    { replace ((e * sin t)^2) with (e^2 * (sin t * sin t)) by ring. rewrite He2, sin_sq.
      replace ((b * sin t)^2) with (b^2 * (sin t * sin t)) by ring. rewrite sin_sq. field. lra. }
    rewrite <- Q.
    transitivity (((cos t * cos t + sin t * sin t + sin t) / (1 + sin t)) / cos t - e ^ 2 * cos t / (1 - (e * sin t)^2)).
    { field. repeat split; try nra. }
    replace (cos t * cos t + sin t * sin t) with 1 by (pose proof (sc1 t); lra).
    assert (Z : 0 < 1 - (e * sin t)^2) by nra.
    replace ((1 + sin t) / (1 + sin t)) with 1 by (field; lra).
    apply Rmult_eq_reg_r with (cos t * (a^2 * (1 - (e * sin t)^2))); [|apply Rgt_not_eq; repeat apply Rmult_lt_0_compat; nra].
    transitivity (a^2 * (1 - (e * sin t)^2) - a^2 * e^2 * (cos t * cos t)).
    { field. split; lra. }
    transitivity (b ^ 2).
    + transitivity (a^2 - a^2 * e^2 * (sin t * sin t + cos t * cos t)); [ring|].
      rewrite sc1, He2. field. lra.
    + field. split; lra.
Qed.
Lemma iso_incr t u : - (PI/2) < t -> t < u -> u < PI/2 -> iso_expr e t < iso_expr e u.
Proof.
  intros Ht Htu Hu.
  apply (mvt_incr (iso_expr e) (fun t => meridian t ell false / parallel t ell false)); [assumption| |].
  - intros c Hc. apply D_iso. apply cos_gt_0; lra.
  - intros c Hc. apply Rdiv_lt_0_compat; [apply (meridian_pos ell H)|].
    unfold parallel. apply Rmult_lt_0_compat; [|apply (transverse_pos ell H)].
    cbn [rad_in]. apply cos_gt_0; lra.
Qed.

(** conformal expression = Gudermannian of the isometric one *)
Lemma conformal_gd t : 0 < cos t ->
  conformal_expr e t = 2 * atan (exp (iso_expr e t)) - PI / 2.
Proof.
  intros Hc. unfold conformal_expr. do 3 f_equal.
  pose proof (es_bound t) as Hes. pose proof (sin_open t Hc) as Hs.
  apply sqrt_uniq; [left; apply exp_pos|].
  rewrite <- exp_plus. unfold iso_expr. rewrite asinh_tan by assumption. unfold atanh, Rpower.
  assert (P1 : 0 < (1 + sin t) / cos t) by (apply Rdiv_lt_0_compat; lra).
  assert (P2 : 0 < (1 + e * sin t) / (1 - e * sin t)) by (apply Rdiv_lt_0_compat; lra).
  set (L := ln ((1 + sin t) / cos t)). set (M := ln ((1 + e * sin t) / (1 - e * sin t))).
  replace (L - e * (/ 2 * M) + (L - e * (/ 2 * M))) with (L + L + - (e * M)) by field.
  replace (ln ((1 - e * sin t) / (1 + e * sin t))) with (- M).
  2:{ unfold M. rewrite <- ln_Rinv by assumption. f_equal. field. lra. }
  rewrite exp_plus, exp_plus. replace (exp L) with ((1 + sin t) / cos t) by (symmetry; now apply exp_ln).
  replace (- (e * M)) with (e * - M) by ring. f_equal.
  pose proof (sc1 t). apply Rmult_eq_reg_r with (cos t * cos t * (1 - sin t)); [|apply Rgt_not_eq; repeat apply Rmult_lt_0_compat; lra].
  transitivity ((1 + sin t) ^ 2 * (1 - sin t)); [field; lra|].
  transitivity ((1 + sin t) * (cos t * cos t)); [|field; lra].
  replace (cos t * cos t) with (1 - sin t * sin t) by lra. ring.
Qed.
Lemma gd_range x : - (PI/2) < 2 * atan (exp x) - PI / 2 < PI / 2.
Proof.
  pose proof (atan_bound (exp x)). assert (0 < atan (exp x)).
  { rewrite <- atan_0. apply atan_increasing, exp_pos. }
  lra.
Qed.
Lemma atan_exp_opp x : atan (exp (- x)) = PI / 2 - atan (exp x).
Proof.
  rewrite exp_Ropp. symmetry. rewrite atan_inv by apply exp_pos. reflexivity.
Qed.
Lemma gd_opp x : 2 * atan (exp (- x)) - PI / 2 = - (2 * atan (exp x) - PI / 2).
Proof. rewrite atan_exp_opp. lra. Qed.
Lemma gd_incr x y : x < y -> 2 * atan (exp x) - PI / 2 < 2 * atan (exp y) - PI / 2.
Proof. intros Hxy. apply exp_increasing, atan_increasing in Hxy. lra. Qed.

Let conf t := if Req_EM_T (1 - sin t) 0 then PI / 2 else conformal_expr e t.
Lemma conf_in t : - (PI/2) < t < PI/2 -> conf t = 2 * atan (exp (iso_expr e t)) - PI / 2.
Proof.
  intros Ht. assert (0 < cos t) by (apply cos_gt_0; lra). pose proof (sin_open t H0).
  unfold conf. destruct (Req_EM_T (1 - sin t) 0); [lra|]. now apply conformal_gd.
Qed.
Lemma conf_PI2 : conf (PI/2) = PI/2.
Proof. unfold conf. rewrite sin_PI2. destruct (Req_EM_T (1 - 1) 0); lra. Qed.
Lemma conf_mPI2 : conf (- (PI/2)) = - (PI/2).
Proof.
  unfold conf, conformal_expr. rewrite sin_neg, sin_PI2. destruct (Req_EM_T (1 - - (1)) 0); [lra|].
  replace ((1 + - (1)) / (1 - - (1))) with 0 by field. rewrite Rmult_0_l, sqrt_0, atan_0. lra.
Qed.
Lemma conf_cases t : - (PI/2) <= t <= PI/2 -> t = PI/2 \/ t = -(PI/2) \/ - (PI/2) < t < PI/2.
Proof. intros. destruct (Req_dec t (PI/2)); [tauto|]. destruct (Req_dec t (-(PI/2))); [tauto|]. lra. Qed.
Lemma conf_range t : - (PI/2) <= t <= PI/2 -> - (PI/2) <= conf t <= PI/2.
Proof.
  intros Ht. pose proof PI_RGT_0. destruct (conf_cases t Ht) as [->|[->|C]].
  - rewrite conf_PI2. lra.
  - rewrite conf_mPI2. lra.
  - rewrite conf_in by assumption. pose proof (gd_range (iso_expr e t)). lra.
Qed.
Lemma conf_opp t : - PI/2 <= t <= PI/2 -> conf (- t) = - conf t.
Proof.
  intros Ht. destruct (conf_cases t) as [->|[->|C]]; [lra| | |].
  - now rewrite conf_PI2, conf_mPI2.
  - now rewrite Ropp_involutive, conf_PI2, conf_mPI2, Ropp_involutive.
  - rewrite !conf_in by lra. rewrite iso_opp by (apply cos_gt_0; lra). apply gd_opp.
Qed.
Lemma conf_incr : increasing_on (- (PI/2)) (PI/2) conf.
Proof.
  intros x y Hx Hxy Hy. pose proof PI_RGT_0.
  destruct (conf_cases x) as [->|[->|C]]; [lra|lra| |]; (destruct (conf_cases y) as [->|[->|C']]; [lra| |lra|]).
  - rewrite conf_PI2, conf_mPI2. lra.
  - rewrite conf_mPI2, conf_in by assumption. apply gd_range.
  - rewrite conf_PI2, conf_in by assumption. apply gd_range.
  - rewrite !conf_in by assumption. apply gd_incr, iso_incr; lra.
Qed.
Lemma conformal_props deg :
  odd_fixing (quarter deg) (fun x => geodetic2conformal x ell deg) /\
  increasing_on (- quarter deg) (quarter deg) (fun x => geodetic2conformal x ell deg).
Proof.
  split.
  - apply (unit_odd deg conf); [apply conf_opp|apply conf_PI2].
  - apply (unit_increasing deg conf), conf_incr.
Qed.
Lemma conformal_range x deg : - quarter deg <= x <= quarter deg ->
  - quarter deg <= geodetic2conformal x ell deg <= quarter deg.
Proof.
  intros Hx. apply rad_range in Hx. change (geodetic2conformal x ell deg) with (deg_out deg (conf (rad_in deg x))).
  pose proof (conf_range (rad_in deg x) ltac:(lra)).
  rewrite <- deg_out_mquarter, <- deg_out_quarter. split; apply deg_out_le; lra.
Qed.
(** isometric, public functions *)
Lemma isometric_away x deg : - quarter deg <= x <= quarter deg -> COS_EPS < cos (rad_in deg x) ->
  geodetic2isometric x ell deg = Fin (deg_out deg (iso_expr e (rad_in deg x))).
Proof.
  intros Hx Hc. unfold geodetic2isometric. fold e.
  destruct (Rle_dec (Rabs (cos (rad_in deg x))) COS_EPS) as [L|L]; [|reflexivity].
  rewrite Rabs_right in L; unfold COS_EPS in *; lra.
Qed.
Lemma isometric_pole deg : geodetic2isometric (quarter deg) ell deg = PInf /\
  geodetic2isometric (- quarter deg) ell deg = MInf.
Proof.
  unfold geodetic2isometric. rewrite rad_in_quarter, rad_in_mquarter, mPI2, cos_neg, cos_PI2, Rabs_R0.
  pose proof PI_RGT_0.
  destruct (Rle_dec 0 COS_EPS) as [L|L]; [|unfold COS_EPS in L; lra].
  destruct (Rlt_dec (PI/2) 0); [lra|]. destruct (Rlt_dec (-(PI/2)) 0); [|lra]. split; reflexivity.
Qed.
Lemma isometric_conformal x deg : - quarter deg <= x <= quarter deg ->
  match geodetic2isometric x ell deg with
  | Fin psi => geodetic2conformal x ell deg = deg_out deg (2 * atan (exp (rad_in deg psi)) - PI / 2)
  | _ => Rabs (cos (rad_in deg x)) <= COS_EPS
  end.
Proof.
  intros Hx. unfold geodetic2isometric. fold e. pose proof (rad_range deg x Hx) as Hr.
  destruct (Rle_dec (Rabs (cos (rad_in deg x))) COS_EPS) as [L|L].
  - destruct (Rlt_dec (rad_in deg x) 0); exact L.
  - cbn [xdeg_out]. rewrite rad_in_deg_out.
    change (geodetic2conformal x ell deg) with (deg_out deg (conf (rad_in deg x))). f_equal.
    apply conf_in. destruct (conf_cases (rad_in deg x)) as [E|[E|E]]; [lra| | |exact E];
      exfalso; apply L; rewrite E, ?cos_neg, cos_PI2, Rabs_R0; unfold COS_EPS; lra.
Qed.
Lemma isometric2geodetic_conformal x deg : - quarter deg <= x <= quarter deg ->
  COS_EPS < cos (rad_in deg x) \/ x = quarter deg \/ x = - quarter deg ->
  isometric2geodetic (geodetic2isometric x ell deg) ell deg
  = conformal2geodetic (geodetic2conformal x ell deg) ell deg.
Proof.
  intros Hx Hc.
  assert (G : forall v, conformal2geodetic (deg_out deg v) ell deg = deg_out deg (conformal2geodetic v ell false)).
  { intros v. unfold conformal2geodetic. rewrite rad_in_deg_out. reflexivity. }
  destruct Hc as [Hc|[->| ->]].
  - pose proof (isometric_conformal x deg Hx) as E. rewrite (isometric_away x deg Hx Hc) in *.
    rewrite E, G. unfold isometric2geodetic. reflexivity.
  - rewrite (proj1 (isometric_pole deg)). destruct (conformal_props deg) as ((_ & _ & E & _) & _).
    rewrite E, <- (deg_out_quarter deg), G. unfold isometric2geodetic. do 2 f_equal. field.
  - rewrite (proj2 (isometric_pole deg)). destruct (conformal_props deg) as ((_ & _ & _ & E) & _).
    rewrite E, <- (deg_out_mquarter deg), G. unfold isometric2geodetic. do 2 f_equal. rewrite atan_0. field.
Qed.
(** array version *)
Lemma conformal_array_ok xs deg :
  (forall x, In x xs -> - quarter deg <= x <= quarter deg /\ x <> quarter deg) ->
  geodetic2conformal_array xs ell deg = inl (map (fun x => geodetic2conformal x ell deg) xs).
Proof.
  intros Hx. unfold geodetic2conformal_array. fold e.
  assert (Hs : forall x, In x xs -> 1 - sin (rad_in deg x) <> 0).
  { intros x Hin E. destruct (Hx x Hin) as [Hr Hq]. apply rad_range in Hr.
    assert (cos (rad_in deg x) = 0).
    { pose proof (sc1 (rad_in deg x)). nra. }
    destruct (cos0_range _ Hr H0) as [Ex|Ex].
    - apply Hq. rewrite <- (deg_out_rad_in deg x), Ex. apply deg_out_quarter.
    - rewrite Ex, mPI2, sin_neg, sin_PI2 in E. lra. }
  replace (existsb _ _) with false.
  - rewrite map_map. f_equal. apply map_ext_in. intros x Hin. unfold geodetic2conformal. fold e.
    destruct (Req_EM_T (1 - sin (rad_in deg x)) 0) as [E|E]; [|reflexivity]. now apply Hs in E.
  - symmetry. rewrite <- not_true_iff_false. intros E. apply existsb_exists in E.
    destruct E as (y & Hy & Ey). apply in_map_iff in Hy. destruct Hy as (x & <- & Hin).
    destruct (Req_EM_T (1 - sin (rad_in deg x)) 0) as [Z|Z]; [now apply (Hs x Hin)|discriminate].
Qed.
Lemma conformal_array_bad xs deg : In (quarter deg) xs ->
  geodetic2conformal_array xs ell deg = inr (quarter deg).
Proof.
  intros Hin. unfold geodetic2conformal_array.
  replace (existsb _ _) with true; [now rewrite deg_out_quarter|].
  symmetry. apply existsb_exists. exists (PI/2). split.
  - rewrite <- (rad_in_quarter deg). now apply in_map.
  - rewrite sin_PI2. destruct (Req_EM_T (1 - 1) 0); [reflexivity|lra].
Qed.
End E.
