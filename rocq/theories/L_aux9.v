(** Rhumb lines: the code's loxodrome functions against the true curves. *)
From Coq Require Import QArith List Reals Lra Lia Psatz.
Import ListNotations.
From Coquelicot Require Import Coquelicot.
From Verif Require Import PyMath L_PyMath M_ellipsoid M_ecef M_rcurve M_rsphere M_latitude M_lox Spec Spec_geodesic Spec_aux L_ell L_aer L_rcurve L_latitude L_poly L_series1 L_aux1 L_aux2 L_aux6 L_aux7 L_aux8.
From Verif Require L_latitude2 L_latitude3 L_lox.
Open Scope R_scope.

Section E.
Variables (ell : option Ellipsoid) (H : ell_ok ell).
Let a := ell_a ell.
Let b := ell_b ell.
Let M p := meridian p ell false.
Let P p := parallel p ell false.
Let Mpos p : 0 < M p. Proof. apply (meridian_pos ell H). Qed.
Lemma par_pos p : - (PI / 2) < p < PI / 2 -> 0 < P p.
Proof. intros Hp. unfold P, parallel. cbn [rad_in]. apply Rmult_lt_0_compat; [apply cos_gt_0; lra|apply (transverse_pos ell H)]. Qed.
Let Zf p := snd (surface_point a b p 0).
Lemma sp_eq p l : surface_point a b p l = (P p * cos l, P p * sin l, Zf p).
Proof.
  unfold Zf. rewrite !(surface_ecef ell). unfold geodetic2ecef. cbn [rad_in snd]. unfold P, parallel. cbn [rad_in]. rewrite (transverse_W ell H). rewrite resolve_a, resolve_b. cbn [rad_in].
  apply f_equal2; [apply f_equal2|]; ring.
Qed.
Lemma dP p : derivable_pt_lim P p (- (M p * sin p)).
Proof.
  destruct (speed_ex ell H p) as (E & _). unfold vscale, north_axis in E. cbn [fst snd] in E. rewrite cos_0 in E. replace (- (M p * sin p)) with (M p * - (sin p * 1)) by ring.
  apply is_derive_Reals. apply is_derive_Reals in E. revert E. apply is_derive_ext. intros t. fold a b. rewrite sp_eq. cbn [fst snd]. rewrite cos_0. apply Rmult_1_r.
Qed.
Lemma dZ p : derivable_pt_lim Zf p (M p * cos p).
Proof. destruct (speed_ex ell H p) as (_ & _ & E). exact E. Qed.
Lemma rhumb_rates az phi lam s1 s2 : rhumb_line a b az phi lam s1 s2 -> forall s, s1 <= s <= s2 ->
  derivable_pt_lim phi s (cos az / M (phi s)) /\ derivable_pt_lim lam s (sin az / P (phi s)).
Proof.
  intros RL s Hs. destruct (RL s Hs) as (Rg & (p' & l' & D1 & D2) & (V1 & V2 & V3)).
  set (p := phi s) in *. set (l := lam s) in *.
  pose proof (derivable_pt_lim_comp phi P s _ _ D1 (dP (phi s))) as CP. pose proof (derivable_pt_lim_comp phi Zf s _ _ D1 (dZ (phi s))) as CZ.
  pose proof (derivable_pt_lim_comp lam cos s _ _ D2 (derivable_pt_lim_cos (lam s))) as CC. pose proof (derivable_pt_lim_comp lam sin s _ _ D2 (derivable_pt_lim_sin (lam s))) as CS.
  pose proof (derivable_pt_lim_mult _ _ s _ _ CP CC) as C1. pose proof (derivable_pt_lim_mult _ _ s _ _ CP CS) as C2.
  assert (E1 : fst (fst (heading_vector p l az)) = - (M p * sin p) * p' * cos l + P p * (- sin l * l')).
  { eapply uniqueness_limite; [exact V1|]. apply is_derive_Reals. apply is_derive_Reals in C1. revert C1. apply is_derive_ext. intros x. rewrite sp_eq. reflexivity. }
  assert (E2 : snd (fst (heading_vector p l az)) = - (M p * sin p) * p' * sin l + P p * (cos l * l')).
  { eapply uniqueness_limite; [exact V2|]. apply is_derive_Reals. apply is_derive_Reals in C2. revert C2. apply is_derive_ext. intros x. rewrite sp_eq. reflexivity. }
  assert (E3 : snd (heading_vector p l az) = M p * cos p * p').
  { eapply uniqueness_limite; [exact V3|]. apply is_derive_Reals. apply is_derive_Reals in CZ. revert CZ. apply is_derive_ext. intros x. rewrite sp_eq. reflexivity. }
  unfold heading_vector, vadd, vscale, north_axis, east_axis in E1, E2, E3. cbn [fst snd] in E1, E2, E3.
  assert (Cp : 0 < cos p) by (apply cos_gt_0; lra). pose proof (Mpos p) as Mp. pose proof (par_pos p ltac:(lra)) as Pp.
  assert (U : M p * p' = cos az) by (apply Rmult_eq_reg_l with (cos p); lra).
  assert (W1 : sin l * (P p * l' - sin az) = 0). { replace (- (M p * sin p) * p' * cos l) with (- (M p * p') * sin p * cos l) in E1 by ring. rewrite U in E1. lra. }
  assert (W2 : cos l * (P p * l' - sin az) = 0). { replace (- (M p * sin p) * p' * sin l) with (- (M p * p') * sin p * sin l) in E2 by ring. rewrite U in E2. lra. }
  assert (W : P p * l' = sin az). { pose proof (sc1 l) as S. assert (X : (sin l * sin l + cos l * cos l) * (P p * l' - sin az) = 0). { replace (_ * _) with (sin l * (sin l * (P p * l' - sin az)) + cos l * (cos l * (P p * l' - sin az))) by ring. rewrite W1, W2. ring. } rewrite S in X. lra. }
  split.
  - replace (cos az / M p) with p'; [exact D1|]. rewrite <- U. field. lra.
  - replace (sin az / P p) with l'; [exact D2|]. rewrite <- W. field. lra.
Qed.
(** constant-rate functions *)
Lemma slope_on f df s1 s2 : (forall s, s1 <= s <= s2 -> derivable_pt_lim f s (df s)) -> forall x y, s1 <= x <= s2 -> s1 <= y <= s2 -> exists c, s1 <= c <= s2 /\ f y - f x = df c * (y - x).
Proof.
  intros D x y Hx Hy. assert (In : forall t, Rmin x y <= t <= Rmax x y -> s1 <= t <= s2) by (intros t; unfold Rmin, Rmax; destruct (Rle_dec x y); lra).
  destruct (MVT_gen f x y df) as (c & Hc & E).
  - intros t Ht. apply is_derive_Reals, D, In. lra.
  - intros t Ht. apply derivable_continuous_pt. eexists. apply D, In, Ht.
  - exists c. split; [apply In, Hc|exact E].
Qed.
Section Line.
Variables (az : R) (phi lam : R -> R) (s1 s2 : R).
Hypothesis RL : rhumb_line a b az phi lam s1 s2.
Let Rg s (Hs : s1 <= s <= s2) : - (PI / 2) < phi s < PI / 2. Proof. destruct (RL s Hs) as (Q & _). lra. Qed.
(** The meridian length grows at the rate cos az. *)
Lemma line_length len : meridian_length a b len -> forall x y, s1 <= x <= s2 -> s1 <= y <= s2 -> len (phi y) - len (phi x) = cos az * (y - x).
Proof.
  intros [_ L] x y Hx Hy. destruct (slope_on (fun s => len (phi s)) (fun _ => cos az) s1 s2) with (x := x) (y := y) as (c & _ & E); [|exact Hx|exact Hy|exact E].
  intros s Hs. destruct (rhumb_rates az phi lam s1 s2 RL s Hs) as [D _]. pose proof (Rg s Hs) as B. destruct (L (phi s) ltac:(lra)) as (v & V & DL).
  rewrite (speed ell H _ _ V), north_norm in DL by (left; apply Mpos). replace (cos az) with (M (phi s) * (cos az / M (phi s))) by (field; apply Rgt_not_eq, Mpos).
  apply (derivable_pt_lim_comp phi len s _ _ D DL).
Qed.
Let psi := L_latitude3.iso_expr (eccentricity (resolve_ellipsoid ell)).
Let dpsi s : s1 <= s <= s2 -> derivable_pt_lim (fun s => psi (phi s)) s (cos az / P (phi s)).
Proof.
  intros Hs. destruct (rhumb_rates az phi lam s1 s2 RL s Hs) as [D _]. pose proof (Rg s Hs) as B. pose proof (par_pos (phi s) B) as Pp. pose proof (Mpos (phi s)) as Mp.
  pose proof (L_latitude3.D_iso ell H (phi s) ltac:(apply cos_gt_0; lra)) as DP. apply is_derive_Reals in DP.
  replace (cos az / P (phi s)) with (M (phi s) / P (phi s) * (cos az / M (phi s))) by (field; lra). apply (derivable_pt_lim_comp phi psi s _ _ D DP).
Qed.
(** The Mercator triangle. *)
Lemma line_mercator x y : s1 <= x <= s2 -> s1 <= y <= s2 -> exists c, s1 <= c <= s2 /\
  psi (phi y) - psi (phi x) = (y - x) / P (phi c) * cos az /\ lam y - lam x = (y - x) / P (phi c) * sin az.
Proof.
  intros Hx Hy.
  destruct (slope_on (fun s => cos az * psi (phi s) + sin az * lam s) (fun s => 1 / P (phi s)) s1 s2) with (x := x) (y := y) as (c & Hc & E); [|exact Hx|exact Hy|].
  { intros s Hs. destruct (rhumb_rates az phi lam s1 s2 RL s Hs) as [_ D]. pose proof (sc1 az) as S. pose proof (par_pos (phi s) (Rg s Hs)) as Pp.
    replace (1 / P (phi s)) with (cos az * (cos az / P (phi s)) + sin az * (sin az / P (phi s))) by (rewrite <- S; field; lra).
    apply derivable_pt_lim_plus; apply derivable_pt_lim_scal; [apply dpsi, Hs|exact D]. }
  destruct (slope_on (fun s => cos az * lam s - sin az * psi (phi s)) (fun s => 0) s1 s2) with (x := x) (y := y) as (c' & _ & E'); [|exact Hx|exact Hy|].
  { intros s Hs. destruct (rhumb_rates az phi lam s1 s2 RL s Hs) as [_ D]. pose proof (par_pos (phi s) (Rg s Hs)) as Pp.
    replace 0 with (cos az * (sin az / P (phi s)) - sin az * (cos az / P (phi s))) by (field; lra).
    apply derivable_pt_lim_minus; apply derivable_pt_lim_scal; [exact D|apply dpsi, Hs]. }
  exists c. split; [exact Hc|]. cbn beta in E, E'. pose proof (sc1 az) as S. pose proof (par_pos (phi c) (Rg c Hc)) as Pp.
  set (dp := psi (phi y) - psi (phi x)). set (dl := lam y - lam x).
  assert (F : cos az * dp + sin az * dl = (y - x) / P (phi c)) by (unfold dp, dl; rewrite <- (Rmult_1_l ((y - x) / _)); unfold Rdiv in *; lra).
  assert (F' : cos az * dl - sin az * dp = 0) by (unfold dp, dl; lra). rewrite <- F. split.
  - transitivity ((sin az * sin az + cos az * cos az) * dp - sin az * (cos az * dl - sin az * dp) + sin az * (cos az * dl - sin az * dp)); [rewrite S, F'; ring|]. rewrite F'. 
    transitivity (cos az * (cos az * dp + sin az * dl) - sin az * (cos az * dl - sin az * dp)); [ring|rewrite F'; ring].
  - transitivity ((sin az * sin az + cos az * cos az) * dl); [rewrite S; ring|]. transitivity (sin az * (cos az * dp + sin az * dl) + cos az * (cos az * dl - sin az * dp)); [ring|rewrite F'; ring].
Qed.
End Line.
End E.
