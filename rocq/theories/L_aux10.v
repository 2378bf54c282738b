(** loxodrome_inverse and loxodrome_direct against true rhumb lines; existence of rhumb lines. *)
From Coq Require Import QArith List Reals Lra Lia Psatz.
Import ListNotations.
From Coquelicot Require Import Coquelicot.
From Verif Require Import PyMath L_PyMath M_ellipsoid M_ecef M_rcurve M_rsphere M_latitude M_lox Spec Spec_geodesic Spec_aux L_ell L_aer L_rcurve L_latitude L_poly L_series1 L_aux1 L_aux2 L_aux6 L_aux7 L_aux8 L_aux9 L_vin3.
From Verif Require L_latitude2 L_latitude3 L_lox.
Open Scope R_scope.

(** ** the inverse of a function with slope at least 4/5 *)
Section Inv.
Variables (f df : R -> R).
Hypothesis D : forall x, is_derive f x (df x).
Hypothesis Lo : forall x, 4 / 5 <= df x.
Lemma f_cont : continuity f. Proof. intros x. apply derivable_continuous_pt. eexists. apply is_derive_Reals, D. Qed.
Lemma f_steep x y : x <= y -> 4 / 5 * (y - x) <= f y - f x.
Proof.
  intros Hxy. destruct (MVT_gen f x y df) as (c & _ & E); [intros t _; apply D|intros t _; apply f_cont|]. rewrite E. pose proof (Lo c). nra.
Qed.
Lemma f_steep_abs x y : 4 / 5 * Rabs (y - x) <= Rabs (f y - f x).
Proof.
  destruct (Rle_dec x y) as [L|L].
  - pose proof (f_steep x y L). rewrite !Rabs_right by lra. lra.
  - pose proof (f_steep y x ltac:(lra)). rewrite !Rabs_left1 by lra. lra.
Qed.
Lemma finv_bracket y : Rmin (f (- (5 / 4 * Rabs (y - f 0)))) (f (5 / 4 * Rabs (y - f 0))) <= y <= Rmax (f (- (5 / 4 * Rabs (y - f 0)))) (f (5 / 4 * Rabs (y - f 0))).
Proof.
  pose proof (Rabs_pos (y - f 0)) as P. remember (5 / 4 * Rabs (y - f 0)) as k eqn:Ek. assert (K : 0 <= k) by lra.
  pose proof (f_steep 0 k K) as U. pose proof (f_steep (- k) 0 ltac:(lra)) as W. pose proof (Rle_abs (y - f 0)) as A1. pose proof (Rle_abs (- (y - f 0))) as A2. rewrite Rabs_Ropp in A2.
  rewrite Rmin_left, Rmax_right by lra. split; lra.
Qed.
Definition finv (y : R) : R := proj1_sig (IVT_gen f (- (5 / 4 * Rabs (y - f 0))) (5 / 4 * Rabs (y - f 0)) y f_cont (finv_bracket y)).
Lemma finv_eq y : f (finv y) = y.
Proof. unfold finv. exact (proj2 (proj2_sig (IVT_gen f (- (5 / 4 * Rabs (y - f 0))) (5 / 4 * Rabs (y - f 0)) y f_cont (finv_bracket y)))). Qed.
Lemma f_inj x y : f x = f y -> x = y.
Proof. intros E. pose proof (f_steep_abs x y) as S. rewrite E, Rminus_eq_0, Rabs_R0 in S. pose proof (Rabs_pos (y - x)). destruct (Req_dec (y - x) 0) as [Q|Q]; [lra|]. apply Rabs_no_R0 in Q. lra. Qed.
Lemma finv_derive y : derivable_pt_lim finv y (/ df (finv y)).
Proof.
  intros eps Heps. set (x := finv y). set (m := df x). assert (Hm : 4 / 5 <= m) by apply Lo.
  destruct (proj1 (is_derive_Reals f x m) (D x) (eps * (16 / 25)) ltac:(lra)) as [d Hd].
  assert (Dp : 0 < 4 / 5 * d) by (destruct d; cbn; lra). exists (mkposreal _ Dp). intros h Hh0 Hh. cbn in Hh.
  set (k := finv (y + h) - x). assert (Ek : f (x + k) - f x = h). { unfold k. replace (x + (finv (y + h) - x)) with (finv (y + h)) by ring. unfold x. rewrite !finv_eq. ring. }
  pose proof (f_steep_abs x (x + k)) as S. replace (x + k - x) with k in S by ring. rewrite Ek in S.
  assert (K0 : k <> 0). { intros Z. rewrite Z, Rplus_0_r, Rminus_eq_0 in Ek. lra. }
  specialize (Hd k K0 ltac:(lra)). rewrite Ek in Hd. assert (Kp : 0 < Rabs k) by (apply Rabs_pos_lt; exact K0). assert (Hp : 0 < Rabs h) by (apply Rabs_pos_lt; exact Hh0).
  fold k. replace (k / h - / m) with ((m - h / k) * (k / h) * / m) by (field; repeat split; lra). rewrite !Rabs_mult.
  assert (A1 : Rabs (m - h / k) < eps * (16 / 25)) by (rewrite Rabs_minus_sym; exact Hd).
  assert (A2 : Rabs (k / h) <= 5 / 4). { unfold Rdiv. rewrite Rabs_mult, Rabs_inv. apply Rmult_le_reg_r with (Rabs h); [exact Hp|]. rewrite Rmult_assoc, Rinv_l, Rmult_1_r by lra. lra. }
  assert (A3 : 0 < Rabs (/ m) <= 5 / 4). { rewrite Rabs_right by (apply Rle_ge, Rlt_le, Rinv_0_lt_compat; lra). split; [apply Rinv_0_lt_compat; lra|]. replace (5 / 4) with (/ (4 / 5)) by field. apply Rinv_le_contravar; lra. }
  pose proof (Rabs_pos (m - h / k)). pose proof (Rabs_pos (k / h)).
  apply Rle_lt_trans with (Rabs (m - h / k) * (5 / 4) * (5 / 4)); [|lra]. apply Rmult_le_compat; [apply Rmult_le_pos; lra|lra| |lra]. apply Rmult_le_compat_l; lra.
Qed.
End Inv.

Section E.
Variables (ell : option Ellipsoid) (H : ell_ok ell).
Let a := ell_a ell.
Let b := ell_b ell.
Hypothesis HF : 9 * a <= 10 * b.
Let n := third a b.
Let A := (a + b) / 2.
Let Hn : 0 <= n <= 1 / 19. Proof. exact (n_range ell H HF). Qed.
Let mer := mer0 n.
Let DM : forall x, is_derive mer x (mrad n (cos (2 * x))). Proof. exact (mer0_D n Hn). Qed.
Let ZM : mer 0 = 0. Proof. exact (mer0_0 n). Qed.
Let AP : 0 < A. Proof. exact (A_pos ell H). Qed.
Let len x := A * mer x.
Let LL : meridian_length a b len. Proof. exact (length_ex ell H HF). Qed.
Let Slo x : 4 / 5 <= mrad n (cos (2 * x)). Proof. apply mrad_pos; [exact Hn|apply cos_abs1]. Qed.
Let psi := L_latitude3.iso_expr (eccentricity (resolve_ellipsoid ell)).
Let M p := meridian p ell false.
Let P p := parallel p ell false.
Let Mpos p : 0 < M p. Proof. apply (meridian_pos ell H). Qed.

Lemma mer_lt x y : mer x < mer y -> x < y.
Proof. intros L. destruct (Rlt_dec x y) as [Q|Q]; [exact Q|]. pose proof (f_steep mer _ DM Slo y x ltac:(lra)). lra. Qed.

(** a curve with the right rates is a rhumb line *)
Lemma rates_rhumb az phi lam s : - (PI / 2) < phi s < PI / 2 -> derivable_pt_lim phi s (cos az / M (phi s)) -> derivable_pt_lim lam s (sin az / P (phi s)) ->
  vderive (fun x => surface_point a b (phi x) (lam x)) s (heading_vector (phi s) (lam s) az).
Proof.
  intros Rg D1 D2. pose proof (par_pos ell H (phi s) Rg) as Pp. fold (P (phi s)) in Pp. pose proof (Mpos (phi s)) as Mp.
  pose proof (derivable_pt_lim_comp phi P s _ _ D1 (dP ell H (phi s))) as CP. pose proof (derivable_pt_lim_comp phi _ s _ _ D1 (dZ ell H (phi s))) as CZ.
  pose proof (derivable_pt_lim_comp lam cos s _ _ D2 (derivable_pt_lim_cos (lam s))) as CC. pose proof (derivable_pt_lim_comp lam sin s _ _ D2 (derivable_pt_lim_sin (lam s))) as CS.
  pose proof (derivable_pt_lim_mult _ _ s _ _ CP CC) as C1. pose proof (derivable_pt_lim_mult _ _ s _ _ CP CS) as C2.
  fold (M (phi s)) in C1, C2, CZ. unfold vderive, heading_vector, vadd, vscale, north_axis, east_axis. cbn [fst snd]. split; [|split].
  - replace (cos az * - (sin (phi s) * cos (lam s)) + sin az * - sin (lam s)) with (- (M (phi s) * sin (phi s)) * (cos az / M (phi s)) * cos (lam s) + P (phi s) * (- sin (lam s) * (sin az / P (phi s)))) by (field; repeat apply conj; apply Rgt_not_eq; first [exact Pp|exact Mp]).
    apply is_derive_Reals. apply is_derive_Reals in C1. revert C1. apply is_derive_ext. intros x. pose proof (sp_eq ell H (phi x) (lam x)) as Q. fold a b in Q. rewrite Q. reflexivity.
  - replace (cos az * - (sin (phi s) * sin (lam s)) + sin az * cos (lam s)) with (- (M (phi s) * sin (phi s)) * (cos az / M (phi s)) * sin (lam s) + P (phi s) * (cos (lam s) * (sin az / P (phi s)))) by (field; repeat apply conj; apply Rgt_not_eq; first [exact Pp|exact Mp]).
    apply is_derive_Reals. apply is_derive_Reals in C2. revert C2. apply is_derive_ext. intros x. pose proof (sp_eq ell H (phi x) (lam x)) as Q. fold a b in Q. rewrite Q. reflexivity.
  - replace (cos az * cos (phi s) + sin az * 0) with (M (phi s) * cos (phi s) * (cos az / M (phi s))) by (field; repeat apply conj; apply Rgt_not_eq; first [exact Pp|exact Mp]).
    apply is_derive_Reals. apply is_derive_Reals in CZ. revert CZ. apply is_derive_ext. intros x. pose proof (sp_eq ell H (phi x) (lam x)) as Q. fold a b in Q. rewrite Q. reflexivity.
Qed.
Theorem rhumb_exists az phi0 lam0 s1 s2 : - (PI / 2) < phi0 < PI / 2 -> s1 <= 0 <= s2 ->
  Rabs (len phi0 + s1 * cos az) < len (PI / 2) -> Rabs (len phi0 + s2 * cos az) < len (PI / 2) ->
  exists phi lam, phi 0 = phi0 /\ lam 0 = lam0 /\ rhumb_line a b az phi lam s1 s2.
Proof.
  intros Hp Hs B1 B2. pose proof PI_RGT_0 as PP.
  set (phi := fun s => finv mer _ DM Slo (mer phi0 + s * cos az / A)).
  assert (F : forall s, mer (phi s) = mer phi0 + s * cos az / A) by (intros s; apply finv_eq).
  assert (P0 : phi 0 = phi0). { apply (f_inj mer _ DM Slo). rewrite F. field. lra. }
  assert (Dphi : forall s, derivable_pt_lim phi s (cos az / M (phi s))).
  { intros s. unfold M. rewrite (meridian_mrad ell H HF). fold a b n A. replace (cos az / (A * mrad n (cos (2 * phi s)))) with (/ mrad n (cos (2 * phi s)) * (cos az / A)).
    - apply (derivable_pt_lim_comp (fun s => mer phi0 + s * cos az / A) (finv mer _ DM Slo)).
      + apply is_derive_Reals. auto_derive; [exact I|]. field. lra.
      + apply finv_derive.
    - field. pose proof (Slo (phi s)). split; lra. }
  assert (Rg : forall s, s1 <= s <= s2 -> - (PI / 2) < phi s < PI / 2).
  { intros s Hs'. assert (B : Rabs (len phi0 + s * cos az) < len (PI / 2)).
    { apply Rabs_def2 in B1. apply Rabs_def2 in B2. apply Rabs_def1; destruct (Rle_dec 0 (cos az)); nra. }
    assert (E : len phi0 + s * cos az = len (phi s)) by (unfold len; rewrite F; field; lra). rewrite E in B. apply Rabs_def2 in B. unfold len in B. destruct B as [U W].
    split; apply mer_lt.
    - unfold mer. rewrite (mer_odd n (mer0 n) DM ZM). fold mer. apply Rmult_lt_reg_l with A; [exact AP|]. lra.
    - apply Rmult_lt_reg_l with A; [exact AP|]. lra. }
  destruct (Req_dec (cos az) 0) as [Z|NZ].
  - exists phi, (fun s => lam0 + s * sin az / P phi0). pose proof (par_pos ell H phi0 Hp) as Pp. fold (P phi0) in Pp. split; [exact P0|]. split; [field; apply Rgt_not_eq; exact Pp|].
    assert (PC : forall s, phi s = phi0) by (intros s; apply (f_inj mer _ DM Slo); rewrite F, Z; field; lra).
    assert (Dl : forall s, derivable_pt_lim (fun s => lam0 + s * sin az / P phi0) s (sin az / P (phi s))) by (intros s; rewrite PC; apply is_derive_Reals; auto_derive; [exact I|field; apply Rgt_not_eq; exact Pp]).
    intros s Hs'. split; [pose proof (Rg s Hs'); lra|]. split; [exists (cos az / M (phi s)), (sin az / P (phi s)); split; [apply Dphi|exact (Dl s)]|]. exact (rates_rhumb az phi _ s (Rg s Hs') (Dphi s) (Dl s)).
  - exists phi, (fun s => lam0 + sin az / cos az * (psi (phi s) - psi phi0)). split; [exact P0|]. split; [rewrite P0; ring|].
    assert (Dl : forall s, s1 <= s <= s2 -> derivable_pt_lim (fun s => lam0 + sin az / cos az * (psi (phi s) - psi phi0)) s (sin az / P (phi s))).
    { intros s Hs'. pose proof (Rg s Hs') as B. pose proof (par_pos ell H (phi s) B) as Pp. fold (P (phi s)) in Pp. pose proof (Mpos (phi s)) as Mp.
      pose proof (L_latitude3.D_iso ell H (phi s) ltac:(apply cos_gt_0; lra)) as DP. fold psi in DP. apply is_derive_Reals in DP.
      replace (sin az / P (phi s)) with (0 + sin az / cos az * (M (phi s) / P (phi s) * (cos az / M (phi s)) - 0)) by (field; repeat apply conj; try exact NZ; apply Rgt_not_eq; first [exact Pp|exact Mp]).
      apply (derivable_pt_lim_plus (fun _ => lam0)); [apply derivable_pt_lim_const|]. apply (derivable_pt_lim_scal (fun s => psi (phi s) - psi phi0)).
      apply (derivable_pt_lim_minus (fun s => psi (phi s)) (fun _ => psi phi0)); [apply (derivable_pt_lim_comp phi psi s _ _ (Dphi s) DP)|apply derivable_pt_lim_const]. }
    intros s Hs'. split; [pose proof (Rg s Hs'); lra|]. split; [exists (cos az / M (phi s)), (sin az / P (phi s)); split; [apply Dphi|exact (Dl s Hs')]|]. exact (rates_rhumb az phi _ s (Rg s Hs') (Dphi s) (Dl s Hs')).
Qed.

Section Line.
Variables (az : R) (phi lam : R -> R) (s1 s2 : R).
Hypothesis RL : rhumb_line a b az phi lam s1 s2.
Let Rg s (Hs : s1 <= s <= s2) : - (PI / 2) < phi s < PI / 2. Proof. destruct (RL s Hs) as (Q & _). lra. Qed.
(** the parallel changes at the rate - sin phi cos az *)
Lemma line_parallel x y : s1 <= x <= s2 -> s1 <= y <= s2 -> Rabs (P (phi y) - P (phi x)) <= Rabs (cos az) * Rabs (y - x).
Proof.
  intros Hx Hy. destruct (slope_on (fun s => P (phi s)) (fun s => - (sin (phi s) * cos az)) s1 s2) with (x := x) (y := y) as (c & Hc & E); [|exact Hx|exact Hy|].
  - intros s Hs. destruct (rhumb_rates ell H az phi lam s1 s2 RL s Hs) as [D _]. fold (M (phi s)) in D. pose proof (Mpos (phi s)).
    replace (- (sin (phi s) * cos az)) with (- (M (phi s) * sin (phi s)) * (cos az / M (phi s))) by (field; lra). apply (derivable_pt_lim_comp phi P s _ _ D (dP ell H (phi s))).
  - cbn beta in E. rewrite E, Rabs_mult, Rabs_Ropp, Rabs_mult. apply Rmult_le_compat_r; [apply Rabs_pos|]. pose proof (sin_abs1 (phi c)). pose proof (Rabs_pos (cos az)). nra.
Qed.
Lemma sin_near : Rabs (cos az) <= 1 / 10 ^ 9 -> 1 - 1 / 10 ^ 18 <= Rabs (sin az) <= 1.
Proof.
  intros C. pose proof (sc1 az) as S. pose proof (Rabs_pos (cos az)) as A0. pose proof (sin_abs1 az) as S1. split; [|exact S1].
  assert (Q : Rabs (cos az) * Rabs (cos az) <= 1 / 10 ^ 9 * (1 / 10 ^ 9)) by (apply Rmult_le_compat; lra). rewrite <- Rabs_mult, Rabs_right in Q by nra.
  assert (T : Rabs (sin az) * Rabs (sin az) = sin az * sin az) by (rewrite <- Rabs_mult, Rabs_right; nra). pose proof (Rabs_pos (sin az)). replace (1 / 10 ^ 9 * (1 / 10 ^ 9)) with (1 / 10 ^ 18) in Q by field. nra.
Qed.

Theorem inverse_true (deg : bool) lat1 lon1 lat2 lon2 L : s1 <= 0 -> L <= s2 -> 0 < L ->
  rad_in deg lat1 = phi 0 -> rad_in deg lon1 = lam 0 -> rad_in deg lat2 = phi L -> rad_in deg lon2 = lam L ->
  1 / 1000000000 < cos (phi 0) -> 1 / 1000000000 < cos (phi L) ->
  exists dist az', loxodrome_inverse lat1 lon1 lat2 lon2 ell deg = Some (dist, az') /\
    cos (rad_in deg az') = cos az /\ sin (rad_in deg az') = sin az /\
    (1 / 1000000000 <= Rabs (cos az) -> Rabs (dist - L) <= arc_err n * L) /\
    (Rabs (cos az) < 1 / 1000000000 -> Rabs (lam L - lam 0) <= PI -> Rabs (dist - L) <= 4 / 10 ^ 9 * L).
Proof.
  intros S1 S2 HL E1 E2 E3 E4 C1 C2. assert (H0 : s1 <= 0 <= s2) by lra. assert (H1 : s1 <= L <= s2) by lra.
  destruct (L_lox.iso_fin _ ell H C1) as (v1 & V1 & F1). destruct (L_lox.iso_fin _ ell H C2) as (v2 & V2 & F2). fold psi in F1, F2.
  assert (RL' : rhumb_line a b az phi lam 0 L) by (intros s Hs; apply RL; lra).
  destruct (line_mercator ell H az phi lam 0 L RL' 0 L ltac:(lra) ltac:(lra)) as (c & Hc' & G1 & G2). assert (Hc : s1 <= c <= s2) by lra. fold psi in G1. fold (P (phi c)) in G1, G2. rewrite <- F1, <- F2, Rminus_0_r in *.
  assert (Pc : 0 < P (phi c)) by exact (par_pos ell H (phi c) (Rg c Hc)). set (K := L / P (phi c)) in *. assert (KP : 0 < K) by (apply Rdiv_lt_0_compat; lra).
  unfold loxodrome_inverse. rewrite E1, E2, E3, E4, V1, V2. cbn [xsub xatan2]. rewrite G1, G2.
  assert (T : cos (atan2 (K * sin az) (K * cos az)) = cos az /\ sin (atan2 (K * sin az) (K * cos az)) = sin az).
  { rewrite atan2_scale by exact KP. assert (HY : hypot (cos az) (sin az) = 1) by (apply hypot_uniq; [lra|pose proof (sc1 az); lra]).
    pose proof (hypot_cos_atan2 (sin az) (cos az)) as X1. pose proof (hypot_sin_atan2 (sin az) (cos az)) as X2. rewrite HY, Rmult_1_l in X1, X2. split; assumption. }
  set (t := atan2 (K * sin az) (K * cos az)) in *. destruct T as [T1 T2]. rewrite T1.
  eexists _, _. split; [reflexivity|].
  assert (T : cos (rad_in deg (if deg then py_mod (degrees t) 360 else t)) = cos t /\ sin (rad_in deg (if deg then py_mod (degrees t) 360 else t)) = sin t).
  { destruct deg; [|split; reflexivity]. cbn [rad_in]. destruct (py_mod_congr (degrees t) 360 ltac:(lra)) as [k Ek]. rewrite Ek.
    replace (radians (degrees t + IZR k * 360)) with (t + IZR k * (2 * PI)).
    - split; [apply cos_period_Z|apply sin_period_Z].
    - unfold radians, degrees. field. apply PI_neq0. }
  destruct T as [U1 U2]. rewrite U1, U2. split; [exact T1|]. split; [exact T2|]. unfold LOX_COS_EPS. split.
  - intros CC. destruct (Rlt_dec (Rabs (cos az)) (1 / 1000000000)) as [Q|_]; [lra|]. rewrite L_lox.arc_sym.
    pose proof (arc_true ell H HF len (phi 0) (phi L) LL ltac:(pose proof (Rg 0 H0); lra) ltac:(pose proof (Rg L H1); lra)) as Q. fold a b n in Q.
    rewrite (line_length ell H az phi lam s1 s2 RL len LL 0 L H0 H1), Rminus_0_r, Rabs_mult, (Rabs_right L) in Q by lra.
    set (m := meridian_arc (phi 0) (phi L) ell false) in *. set (k := Rabs (cos az)) in *. assert (Kp : 0 < k) by lra.
    replace (m / k - L) with ((m - k * L) / k) by (field; lra). unfold Rdiv. rewrite Rabs_mult, (Rabs_right (/ k)) by (apply Rle_ge, Rlt_le, Rinv_0_lt_compat; exact Kp).
    apply Rmult_le_reg_r with k; [exact Kp|]. rewrite Rmult_assoc, Rinv_l, Rmult_1_r by lra. lra.
  - intros CC HL2. destruct (Rlt_dec (Rabs (cos az)) (1 / 1000000000)) as [_|Q]; [|lra].
    rewrite L_lox.departure_wrap. cbn [rad_in]. rewrite L_lox.wrapdist_small by (rewrite Rabs_minus_sym, G2; exact HL2). rewrite (Rabs_minus_sym (lam 0)), G2. change (parallel (phi 0) ell false) with (P (phi 0)). rewrite Rabs_mult, (Rabs_right K) in * by lra.
    pose proof (line_parallel 0 c H0 Hc) as LP. destruct (sin_near ltac:(lra)) as [N1 N2]. set (sn := Rabs (sin az)) in *. set (P0 := P (phi 0)) in *. set (P1 := P (phi c)) in *.
    assert (EL : L = K * P1) by (unfold K; field; lra). replace (P0 * (K * sn) - L) with (K * sn * (P0 - P1) + L * (sn - 1)) by (rewrite EL; ring).
    eapply Rle_trans; [apply Rabs_triang|]. rewrite !Rabs_mult, (Rabs_right K), (Rabs_right sn), (Rabs_right L), (Rabs_minus_sym P0) by lra. rewrite (Rabs_left1 (sn - 1)) by lra.
    assert (LP' : Rabs (P1 - P0) <= 1 / 1000000000 * L).
    { rewrite Rminus_0_r, (Rabs_right c) in LP by lra. pose proof (Rabs_pos (cos az)). eapply Rle_trans; [exact LP|]. apply Rmult_le_compat; lra. }
    pose proof pi_315. assert (X : K * sn * Rabs (P1 - P0) <= 315 / 100 * (1 / 1000000000 * L)) by (apply Rmult_le_compat; [apply Rmult_le_pos; lra|apply Rabs_pos|lra|exact LP']).
    simpl in *. nra.
Qed.

(** ** loxodrome_direct *)
Lemma arc_signed x y : - (PI / 2) <= x <= PI / 2 -> - (PI / 2) <= y <= PI / 2 ->
  Rabs (rectifying ell * (geodetic2rectifying y ell false - geodetic2rectifying x ell false) - (len y - len x)) <= arc_err n * Rabs (len y - len x).
Proof.
  intros Hx Hy. pose proof (arc_true ell H HF len x y LL Hx Hy) as Q. fold a b n in Q. unfold meridian_arc in Q. cbn [rad_in] in Q.
  pose proof (rcode_rel n Hn mer DM x y) as Q1. pose proof (rect_code ell H x) as Cx. pose proof (rect_code ell H y) as Cy. fold a b n in Cx, Cy. rewrite <- Cx, <- Cy in Q1.
  set (d := geodetic2rectifying y ell false - geodetic2rectifying x ell false) in *. pose proof (rmean_pos n Hn) as RM. pose proof (L_lox.rect_pos ell H) as RP.
  assert (Em : len y - len x = A * (mer y - mer x)) by (unfold len; ring). rewrite Em in *. set (m := mer y - mer x) in *.
  assert (R5 : rel5 n <= 1 / 2). { unfold rel5. assert (P5 : n ^ 5 <= (1 / 19) ^ 5) by (apply pow_incr; exact Hn). assert (P3 : n ^ 3 <= (1 / 19) ^ 3) by (apply pow_incr; exact Hn). assert (0 <= n ^ 3) by (apply pow_le; lra). assert (0 <= n ^ 5) by (apply pow_le; lra).
    apply Rle_trans with ((1 / 19) ^ 5 * (11 + 20 * (1 / 19) + 9000 * (1 / 19) ^ 3)); [apply Rmult_le_compat; lra|simpl; lra]. }
  assert (R5p : 0 <= rel5 n). { unfold rel5. apply Rmult_le_pos; [apply pow_le; lra|]. assert (0 <= n ^ 3) by (apply pow_le; lra). lra. }
  assert (Sg : 0 <= d * m).
  { apply Rabs_le_between in Q1. destruct (Rle_dec 0 m) as [Z|Z].
    - rewrite Rabs_right in Q1 by lra. assert (0 <= rmean n * d) by nra. assert (0 <= d) by (apply Rmult_le_reg_l with (rmean n); lra). nra.
    - rewrite Rabs_left1 in Q1 by lra. assert (rmean n * d <= 0) by nra. assert (d <= 0) by (apply Rmult_le_reg_l with (rmean n); lra). nra. }
  destruct (Rle_dec 0 m) as [Z|Z].
  - assert (Am : 0 <= A * m) by (apply Rmult_le_pos; lra). destruct (Req_dec m 0) as [Z0|Z0].
    + rewrite Z0 in *. rewrite Rmult_0_r, Rabs_R0, Rmult_0_r, !Rminus_0_r, Rabs_mult in *. rewrite Rabs_Rabsolu in Q. exact Q.
    + assert (0 <= d) by nra. rewrite (Rabs_right d), (Rabs_right (A * m)) in Q by lra. rewrite (Rabs_right (A * m)) by lra. exact Q.
  - assert (Am : A * m <= 0) by nra. assert (d <= 0) by nra. rewrite (Rabs_left1 d), (Rabs_left1 (A * m)) in Q by lra. rewrite (Rabs_left1 (A * m)) by lra.
    replace (rectifying ell * d - A * m) with (- (rectifying ell * - d - - (A * m))) by ring. rewrite Rabs_Ropp. exact Q.
Qed.
Lemma mer_lip x y : Rabs (mer y - mer x) <= 6 / 5 * Rabs (y - x).
Proof.
  destruct (MVT_gen mer x y (fun t => mrad n (cos (2 * t)))) as (c & _ & E).
  - intros t _. apply DM.
  - intros t _. apply derivable_continuous_pt. eexists. apply is_derive_Reals, DM.
  - rewrite E, Rabs_mult. apply Rmult_le_compat_r; [apply Rabs_pos|]. destruct (mrad_pos n (cos (2 * c)) Hn (cos_abs1 _)). rewrite Rabs_right; lra.
Qed.
Definition direct_err : R := third (ell_a ell) (ell_b ell) ^ 4 * (9 / 100 + 67 * third (ell_a ell) (ell_b ell) + 128 * third (ell_a ell) (ell_b ell) ^ 2 + 72000 * third (ell_a ell) (ell_b ell) ^ 3).
Lemma direct_err_pos : 0 <= direct_err.
Proof. unfold direct_err. fold a b n. assert (forall k, 0 <= n ^ k) by (intros k; apply pow_le; lra). pose proof (H0 2%nat). pose proof (H0 3%nat). apply Rmult_le_pos; [apply H0|lra]. Qed.
Lemma direct_lat x y D : - (PI / 2) <= x <= PI / 2 -> - (PI / 2) <= y <= PI / 2 -> len y - len x = D ->
  Rabs (rectifying2geodetic (geodetic2rectifying x ell false + D / rectifying ell) ell false - y) <= direct_err.
Proof.
  intros Hx Hy ED. pose proof (arc_signed x y Hx Hy) as Q. rewrite ED in Q. pose proof (L_lox.rect_pos ell H) as RP. pose proof (rho_code ell H HF) as RC. fold a b n A in RC. set (r := rectifying ell) in *.
  assert (RA : A <= r). { assert (0 <= n ^ 2) by (apply pow_le; lra). apply Rmult_le_reg_r with (/ A); [apply Rinv_0_lt_compat, AP|]. rewrite Rinv_r by lra. unfold Rdiv in RC. lra. }
  set (gx := geodetic2rectifying x ell false) in *. set (gy := geodetic2rectifying y ell false) in *. pose proof pi_315 as PI3.
  assert (LD : Rabs D <= r * (378 / 100)).
  { rewrite <- ED. unfold len. rewrite <- Rmult_minus_distr_l, Rabs_mult, (Rabs_right A) by lra. apply Rmult_le_compat; [lra|apply Rabs_pos|exact RA|]. pose proof (mer_lip x y) as ML. assert (Rabs (y - x) <= PI) by (apply Rabs_le; lra). lra. }
  assert (Z : Rabs (gx + D / r - gy) <= 378 / 100 * arc_err n).
  { replace (gx + D / r - gy) with (- (r * (gy - gx) - D) * / r) by (field; lra). rewrite Rabs_mult, Rabs_Ropp, (Rabs_right (/ r)) by (apply Rle_ge, Rlt_le, Rinv_0_lt_compat; exact RP).
    apply Rmult_le_reg_r with r; [exact RP|]. rewrite Rmult_assoc, Rinv_l, Rmult_1_r by lra. pose proof (arc_err_pos n Hn). eapply Rle_trans; [exact Q|]. replace (378 / 100 * arc_err n * r) with (arc_err n * (r * (378 / 100))) by ring. apply Rmult_le_compat_l; assumption. }
  pose proof (rect_round ell H HF y Hy) as RR. fold a b n in RR. fold gy in RR. rewrite !(recti_code ell H) in *. fold a b n in RR |- *.
  destruct (code_lip n Hn gy (gx + D / r)) as [_ CL].
  replace (ssum (ricode n) (gx + D / r) - y) with ((ssum (ricode n) (gx + D / r) - ssum (ricode n) gy) + (ssum (ricode n) gy - y)) by ring.
  eapply Rle_trans; [apply Rabs_triang|]. assert (NP : forall k, 0 <= n ^ k) by (intros k; apply pow_le; lra).
  apply Rle_trans with (14 / 10 * (378 / 100 * arc_err n) + (recti_err n + 14 / 10 * rect_err n)); [lra|].
  unfold arc_err, recti_err, rect_err, direct_err. fold a b n. replace (n ^ 5) with (n ^ 4 * n) by ring.
  assert (N4 : n ^ 4 <= n ^ 3 * (1 / 19)) by (replace (n ^ 4) with (n ^ 3 * n) by ring; apply Rmult_le_compat_l; [apply NP|apply Hn]).
  set (n4 := n ^ 4) in *. replace (14 / 10 * (378 / 100 * (n4 * (1 / 64 + 11 * n + 21 * n ^ 2 + 9000 * n4))) + (n4 * n * (71 / 10 + 13 * n + 67000 * n ^ 2) + 14 / 10 * (n4 * n * (11 / 10 + 2 * n + 30000 * n ^ 3))))
    with (n4 * (14 / 10 * (378 / 100) * (1 / 64) + (14 / 10 * (378 / 100) * 11 + 71 / 10 + 14 / 10 * (11 / 10)) * n + (14 / 10 * (378 / 100) * 21 + 13 + 14 / 10 * 2) * n ^ 2 + 67000 * n ^ 3 + (14 / 10 * (378 / 100) * 9000 + 14 / 10 * 30000) * n4)) by (unfold n4; ring).
  apply Rmult_le_compat_l; [apply NP|]. pose proof (NP 2%nat). pose proof (NP 3%nat). lra.
Qed.
Lemma psi_line s : s1 <= 0 <= s2 -> s1 <= s <= s2 -> cos az <> 0 -> lam s = lam 0 + tan az * (psi (phi s) - psi (phi 0)).
Proof.
  intros H0 Hs C. destruct (line_mercator ell H az phi lam s1 s2 RL 0 s H0 Hs) as (c & Hc & G1 & G2). unfold psi. rewrite G1. replace (lam s) with (lam 0 + (lam s - lam 0)) by ring. rewrite G2. unfold tan. field. split; [|exact C].
  apply Rgt_not_eq. exact (par_pos ell H (phi c) (Rg c Hc)).
Qed.
Theorem direct_true (deg : bool) lat1 lon1 rng az' : s1 <= 0 -> rng <= s2 -> 0 <= rng ->
  rad_in deg lat1 = phi 0 -> rad_in deg lon1 = lam 0 -> rad_in deg az' = az ->
  exists lat2 lon2, loxodrome_direct lat1 lon1 rng az' ell deg = Ok (lat2, lon2) /\
    Rabs (rad_in deg lat2 - phi rng) <= direct_err /\
    (Rabs (cos az) < 1 / 1000000000 -> exists l, lon2 = Some l /\ parallel (phi 0) ell false * Rabs (rad_in deg l - lam rng) <= 1 / 10 ^ 9 * rng * (1 + Rabs (lam rng - lam 0))) /\
    (forall delta, 1 / 1000000000 <= Rabs (cos az) -> delta * Rabs (cos az) = 6 / 5 * A * direct_err -> s1 <= rng - delta -> rng + delta <= s2 ->
      (forall s, s1 <= s <= s2 -> 1 / 1000000000 < cos (phi s)) ->
      exists l sg, lon2 = Some l /\ Rabs (sg - rng) <= delta /\ rad_in deg lat2 = phi sg /\ rad_in deg l = lam sg).
Proof.
  intros S1 S2 HR E1 E2 E3. assert (H0 : s1 <= 0 <= s2) by lra. assert (H1 : s1 <= rng <= s2) by lra. unfold loxodrome_direct. rewrite E1, E2, E3.
  pose proof (Rg 0 H0) as R0. destruct (Rlt_dec (PI / 2) (Rabs (phi 0))) as [B|_]; [exfalso; revert B; apply Rle_not_lt, Rabs_le; lra|]. destruct (Rlt_dec rng 0) as [B|_]; [lra|].
  rewrite L_PyMath.cos_py_mod. set (lat2 := rectifying2geodetic _ ell false).
  assert (LT : Rabs (lat2 - phi rng) <= direct_err).
  { unfold lat2. replace (rng / rectifying ell * cos az) with (rng * cos az / rectifying ell) by (unfold Rdiv; ring). apply direct_lat; [lra|pose proof (Rg rng H1); lra|].
    rewrite (line_length ell H az phi lam s1 s2 RL len LL 0 rng H0 H1). ring. }
  clearbody lat2. eexists _, _. split; [reflexivity|]. unfold LOX_COS_EPS.
  split; [rewrite rad_in_deg_out; exact LT|]. split.
  - intros CC. destruct (Rlt_dec (Rabs (cos az)) (1 / 1000000000)) as [_|Q]; [|lra].
    assert (Pp : 0 < P (phi 0)) by exact (par_pos ell H (phi 0) R0). change (parallel (phi 0) ell false) with (P (phi 0)) in *. destruct (Req_EM_T (P (phi 0)) 0) as [Q|_]; [lra|].
    eexists. split; [reflexivity|]. rewrite rad_in_deg_out.
    assert (RL' : rhumb_line a b az phi lam 0 rng) by (intros s Hs; apply RL; lra).
    destruct (line_mercator ell H az phi lam 0 rng RL' 0 rng ltac:(lra) ltac:(lra)) as (c & Hc' & _ & G2). assert (Hc : s1 <= c <= s2) by lra. rewrite Rminus_0_r in G2.
    assert (Pc : 0 < P (phi c)) by exact (par_pos ell H (phi c) (Rg c Hc)). change (parallel (phi c) ell false) with (P (phi c)) in G2. set (K := rng / P (phi c)) in *. assert (KP : 0 <= K) by (apply Rmult_le_pos; [exact HR|left; apply Rinv_0_lt_compat; exact Pc]).
    pose proof (line_parallel 0 c H0 Hc) as LP. destruct (sin_near ltac:(lra)) as [N1 N2]. rewrite Rminus_0_r, (Rabs_right c) in LP by lra.
    assert (Sg : sign (PI - py_mod az tau) * sin az = Rabs (sin az)).
    { rewrite <- (L_PyMath.sin_py_mod az) in *. destruct (py_mod_range az tau tau_pos) as [M1 M2]. set (q := py_mod az tau) in *. unfold tau in M2. unfold sign. destruct (Rlt_dec (PI - q) 0) as [Z|Z].
      - rewrite Rabs_left1; [ring|]. apply sin_le_0; lra.
      - destruct (Rlt_dec 0 (PI - q)) as [Z'|Z'].
        + rewrite Rabs_right; [ring|]. apply Rle_ge, sin_ge_0; lra.
        + assert (Eq : q = PI) by lra. rewrite Eq, sin_PI, Rabs_R0. ring. }
    set (sg := sign (PI - py_mod az tau)) in *. assert (S2' : sg = 1 \/ sg = -1).
    { unfold sg, sign in *. destruct (Rlt_dec _ 0); [right; reflexivity|]. destruct (Rlt_dec 0 _); [left; reflexivity|]. exfalso. assert (X : 0 = Rabs (sin az)) by lra. simpl in N1. lra. }
    clearbody sg. assert (S3 : sin az = sg * Rabs (sin az)) by (rewrite <- Sg; destruct S2' as [->| ->]; ring).
    replace (lam 0 + sg * rng / P (phi 0) - lam rng) with (sg * rng / P (phi 0) - (lam rng - lam 0)) by ring. rewrite G2, Rabs_mult, (Rabs_right K) by lra. rewrite S3 at 1.
    set (sn := Rabs (sin az)) in *. set (P0 := P (phi 0)) in *. set (P1 := P (phi c)) in *. assert (EL : rng = K * P1) by (unfold K; field; lra).
    replace (sg * rng / P0 - K * (sg * sn)) with (sg * ((K * sn * (P1 - P0) + rng * (1 - sn)) / P0)) by (replace (rng * (1 - sn)) with (rng - K * P1 * sn) by (rewrite EL at 1; rewrite EL; ring); field; lra).
    rewrite Rabs_mult. replace (Rabs sg) with 1 by (destruct S2' as [->| ->]; [rewrite Rabs_right|rewrite Rabs_left]; lra). rewrite Rmult_1_l. unfold Rdiv. rewrite Rabs_mult, (Rabs_right (/ P0)) by (apply Rle_ge, Rlt_le, Rinv_0_lt_compat; exact Pp).
    replace (P0 * (Rabs (K * sn * (P1 - P0) + rng * (1 - sn)) * / P0)) with (Rabs (K * sn * (P1 - P0) + rng * (1 - sn))) by (field; lra).
    eapply Rle_trans; [apply Rabs_triang|]. rewrite !Rabs_mult, (Rabs_right K), (Rabs_right sn), (Rabs_right rng), (Rabs_right (1 - sn)) by lra.
    assert (LP' : Rabs (P1 - P0) <= 1 / 1000000000 * rng). { eapply Rle_trans; [exact LP|]. apply Rmult_le_compat; try lra. apply Rabs_pos. }
    assert (X1 : K * sn * Rabs (P1 - P0) <= K * sn * (1 / 1000000000 * rng)) by (apply Rmult_le_compat_l; [apply Rmult_le_pos; lra|exact LP']).
    assert (X2 : rng * (1 - sn) <= rng * (1 / 10 ^ 9)) by (apply Rmult_le_compat_l; [exact HR|simpl in *; lra]). simpl in *. lra.
  - intros delta CC ED D1 D2 Off. destruct (Rlt_dec (Rabs (cos az)) (1 / 1000000000)) as [Q|_]; [lra|]. assert (NZ : cos az <> 0) by (intros Z; rewrite Z, Rabs_R0 in CC; lra).
    rewrite rad_in_deg_out. pose proof direct_err_pos as EP. assert (Kp : 0 < Rabs (cos az)) by lra. assert (DP : 0 <= delta). { apply Rmult_le_reg_r with (Rabs (cos az)); [exact Kp|]. rewrite ED, Rmult_0_l. apply Rmult_le_pos; lra. }
    set (sg := rng + (len lat2 - len (phi rng)) / cos az).
    assert (SG : Rabs (sg - rng) <= delta).
    { unfold sg. replace (rng + (len lat2 - len (phi rng)) / cos az - rng) with ((len lat2 - len (phi rng)) / cos az) by ring. unfold Rdiv. rewrite Rabs_mult, Rabs_inv. apply Rmult_le_reg_r with (Rabs (cos az)); [exact Kp|]. rewrite Rmult_assoc, Rinv_l, Rmult_1_r, ED by lra.
      unfold len. rewrite <- Rmult_minus_distr_l, Rabs_mult, (Rabs_right A) by lra. pose proof (mer_lip (phi rng) lat2). replace (6 / 5 * A * direct_err) with (A * (6 / 5 * direct_err)) by ring. apply Rmult_le_compat_l; lra. }
    assert (HS : s1 <= sg <= s2) by (apply Rabs_le_between in SG; lra).
    assert (EL : phi sg = lat2).
    { apply (f_inj mer _ DM Slo). pose proof (line_length ell H az phi lam s1 s2 RL len LL rng sg H1 HS) as Q. assert (Es : cos az * (sg - rng) = len lat2 - len (phi rng)) by (unfold sg; field; exact NZ). rewrite Es in Q. unfold len in Q. apply Rmult_eq_reg_l with A; lra. }
    destruct (L_lox.iso_fin (phi 0) ell H (Off 0 H0)) as (v1 & V1 & F1). destruct (L_lox.iso_fin (phi sg) ell H (Off sg HS)) as (v2 & V2 & F2). fold psi in F1, F2. rewrite EL in V2. rewrite V1, V2. cbn [lox_dlon].
    eexists _, sg. split; [reflexivity|]. split; [exact SG|]. split; [symmetry; exact EL|]. rewrite rad_in_deg_out, (psi_line sg H0 HS NZ), F1, F2. f_equal. f_equal. unfold tan. rewrite L_PyMath.cos_py_mod, L_PyMath.sin_py_mod. reflexivity.
Qed.
End Line.

(** any two points off the poles are joined by a rhumb line with the given (unwrapped) longitudes *)
Lemma len_mono x y : x < y -> len x < len y.
Proof. intros L. unfold len. apply Rmult_lt_compat_l; [exact AP|]. pose proof (f_steep mer _ DM Slo x y ltac:(lra)). lra. Qed.
Lemma psi_mono x y : - (PI / 2) < x < PI / 2 -> - (PI / 2) < y < PI / 2 -> x < y -> psi x < psi y.
Proof. intros Hx Hy L. apply (L_latitude3.iso_incr ell H); lra. Qed.
Theorem rhumb_joins p1 l1 p2 l2 : - (PI / 2) < p1 < PI / 2 -> - (PI / 2) < p2 < PI / 2 -> (p1 <> p2 \/ l1 <> l2) ->
  exists az L phi lam, 0 < L /\ rhumb_line a b az phi lam 0 L /\ phi 0 = p1 /\ lam 0 = l1 /\ phi L = p2 /\ lam L = l2.
Proof.
  intros H1 H2 Df. pose proof PI_RGT_0 as PP.
  assert (LB : forall p, - (PI / 2) < p < PI / 2 -> Rabs (len p) < len (PI / 2)).
  { intros p Hp. pose proof (len_mono p (PI / 2) ltac:(lra)) as U. pose proof (len_mono (- (PI / 2)) p ltac:(lra)) as W. unfold len in W at 1. unfold mer in W at 1. rewrite (mer_odd n (mer0 n) DM ZM) in W. fold mer in W. apply Rabs_def1; [exact U|]. unfold len in *. lra. }
  destruct (Req_dec p1 p2) as [E|NE].
  - destruct Df as [X|Df]; [contradiction|]. subst p2. assert (Pp : 0 < P p1) by exact (par_pos ell H p1 H1).
    set (az := if Rlt_dec l1 l2 then PI / 2 else - (PI / 2)). assert (Ca : cos az = 0) by (unfold az; destruct (Rlt_dec l1 l2); rewrite ?cos_neg, cos_PI2; reflexivity).
    assert (Sa : sin az * Rabs (l2 - l1) = l2 - l1). { unfold az. destruct (Rlt_dec l1 l2); rewrite ?sin_neg, sin_PI2; [rewrite Rabs_right|rewrite Rabs_left1]; lra. }
    assert (LP : 0 < Rabs (l2 - l1)) by (apply Rabs_pos_lt; lra). set (L := Rabs (l2 - l1) * P p1). assert (HL : 0 < L) by (apply Rmult_lt_0_compat; assumption).
    destruct (rhumb_exists az p1 l1 0 L H1 ltac:(lra)) as (phi & lam & E1 & E2 & RL); [rewrite Rmult_0_l, Rplus_0_r; apply LB, H1|rewrite Ca, Rmult_0_r, Rplus_0_r; apply LB, H1|].
    exists az, L, phi, lam. split; [exact HL|]. split; [exact RL|]. split; [exact E1|]. split; [exact E2|].
    assert (PC : forall s, 0 <= s <= L -> phi s = p1). { intros s Hs. apply (f_inj mer _ DM Slo). pose proof (line_length ell H az phi lam 0 L RL len LL 0 s ltac:(lra) Hs) as Q. rewrite Ca, Rmult_0_l, E1 in Q. unfold len in Q. apply Rmult_eq_reg_l with A; lra. }
    split; [apply PC; lra|]. destruct (line_mercator ell H az phi lam 0 L RL 0 L ltac:(lra) ltac:(lra)) as (c & Hc & _ & G2). rewrite (PC c Hc), E2, Rminus_0_r in G2. change (parallel p1 ell false) with (P p1) in G2.
    replace (L / P p1 * sin az) with (l2 - l1) in G2 by (rewrite <- Sa; unfold L; field; lra). lra.
  - assert (Np : psi p2 - psi p1 <> 0). { destruct (Rtotal_order p1 p2) as [Q|[Q|Q]]; [pose proof (psi_mono p1 p2 H1 H2 Q)|contradiction|pose proof (psi_mono p2 p1 H2 H1 Q)]; lra. }
    set (dp := psi p2 - psi p1) in *. set (dl := l2 - l1). set (az := atan2 dl dp). set (h := hypot dp dl).
    assert (Hh : 0 < h). { unfold h. apply sqrt_lt_R0. assert (0 < dp * dp) by nra. pose proof (Rle_0_sqr dl). unfold Rsqr in *. nra. }
    pose proof (hypot_cos_atan2 dl dp) as Ca. pose proof (hypot_sin_atan2 dl dp) as Sa. fold az h in Ca, Sa.
    assert (Cz : cos az <> 0) by (intros Z; rewrite Z in Ca; lra). set (L := (len p2 - len p1) / cos az).
    assert (HL : 0 < L). { unfold L. destruct (Rtotal_order p1 p2) as [Q|[Q|Q]]; [|contradiction|].
      - pose proof (len_mono p1 p2 Q). pose proof (psi_mono p1 p2 H1 H2 Q) as X. assert (0 < cos az) by (apply Rmult_lt_reg_l with h; unfold dp in *; lra). apply Rdiv_lt_0_compat; lra.
      - pose proof (len_mono p2 p1 Q). pose proof (psi_mono p2 p1 H2 H1 Q) as X. assert (cos az < 0) by (apply Rmult_lt_reg_l with h; unfold dp in *; lra).
        replace ((len p2 - len p1) / cos az) with ((len p1 - len p2) / - cos az) by (field; lra). apply Rdiv_lt_0_compat; lra. }
    assert (EL : L * cos az = len p2 - len p1) by (unfold L; field; exact Cz).
    destruct (rhumb_exists az p1 l1 0 L H1 ltac:(lra)) as (phi & lam & E1 & E2 & RL); [rewrite Rmult_0_l, Rplus_0_r; apply LB, H1|rewrite EL; replace (len p1 + (len p2 - len p1)) with (len p2) by ring; apply LB, H2|].
    exists az, L, phi, lam. split; [exact HL|]. split; [exact RL|]. split; [exact E1|]. split; [exact E2|].
    assert (E3 : phi L = p2). { apply (f_inj mer _ DM Slo). pose proof (line_length ell H az phi lam 0 L RL len LL 0 L ltac:(lra) ltac:(lra)) as Q. rewrite E1, Rminus_0_r in Q. replace (cos az * L) with (L * cos az) in Q by ring. rewrite EL in Q. unfold len in Q. apply Rmult_eq_reg_l with A; lra. }
    split; [exact E3|]. rewrite (psi_line az phi lam 0 L RL L ltac:(lra) ltac:(lra) Cz), E1, E2, E3. fold dp. unfold tan. rewrite <- Ca. replace (sin az / cos az * (h * cos az)) with (h * sin az) by (field; exact Cz). rewrite Sa. unfold dl. ring.
Qed.
End E.
