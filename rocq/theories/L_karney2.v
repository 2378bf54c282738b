(** The Karney direct solver on a sphere and at the exactly solvable points. *)
From Coq Require Import Lia Psatz.
From Verif Require Import PyMath L_PyMath M_ellipsoid M_time M_karney Spec L_karney.
From Verif Require L_ecef L_vincenty L_vincenty3 L_vincenty4 L_ell.
Open Scope R_scope.

Lemma tiny_eq : k_tiny = / 2 ^ 26.
Proof.
  unfold k_tiny, k_tol0. replace (/ 2 ^ 52) with ((/ 2 ^ 26) ^ 2) by (rewrite pow_inv, <- pow_mult; reflexivity).
  apply sqrt_pow2. left. apply Rinv_0_lt_compat, pow_lt. lra.
Qed.
Lemma tiny_pos : 0 < k_tiny.
Proof. rewrite tiny_eq. apply Rinv_0_lt_compat, pow_lt. lra. Qed.

(** Coefficients at eps = 0. *)
Lemma nth_zeros (l : list R) : (forall x, In x l -> x = 0) -> forall i, nth i l 0 = 0.
Proof.
  intros H i. destruct (Nat.lt_ge_cases i (List.length l)) as [L|L]; [apply H, nth_In, L|]. now apply nth_overflow.
Qed.
Lemma series_loop_zero t n d0 : d0 = 0 -> forall k o d x, d = 0 -> In x (series_loop k n t o d d0 (d0 * d0)) -> x = 0.
Proof.
  intros E. induction k as [|k IH]; intros o d x Hd; [intros []|]. cbn [series_loop]. intros [<-|H].
  - rewrite Hd. unfold Rdiv. ring.
  - eapply IH; [|exact H]. rewrite Hd; ring.
Qed.
Lemma series_coeffs_0 n t i : arr (series_coeffs n t 0) i = 0.
Proof.
  unfold arr, series_coeffs. apply nth_zeros. intros x [<-|H]; [reflexivity|].
  exact (series_loop_zero t n 0 eq_refl n 0%nat 0 x eq_refl H).
Qed.
Lemma A1_0 : A1m1f 0 = 0.
Proof. unfold A1m1f, polyval, tbl, A1coeff. cbn [polyval_loop nth]. field. Qed.
Lemma A2_0 : A2m1f 0 = 0.
Proof. unfold A2m1f, polyval, tbl, A2coeff. cbn [polyval_loop nth]. field. Qed.

Lemma reduced_sphere g lat : gd_f1 g = 1 -> k_tiny <= cos (radians lat) ->
  reduced g lat = (sin (radians lat), cos (radians lat)).
Proof.
  intros E H. unfold reduced. rewrite sincosd_eq, E, Rmult_1_r. unfold norm2.
  replace (hypot (sin (radians lat)) (cos (radians lat))) with 1.
  - unfold Rdiv. rewrite Rinv_1, !Rmult_1_r. rewrite Rmax_right by exact H. reflexivity.
  - unfold hypot. pose proof (sc1 (radians lat)) as Q.
    replace (sin (radians lat) ^ 2 + cos (radians lat) ^ 2) with 1 by (rewrite <- Q; ring). now rewrite sqrt_1.
Qed.
Lemma sincosd_norm x : sincosd (AngNormalize x) = (sin (radians x), cos (radians x)).
Proof.
  rewrite sincosd_eq. destruct (AngNormalize_congr x) as [k ->].
  replace (radians (x + IZR k * 360)) with (radians x + IZR k * (2 * PI)) by (unfold radians; field).
  now rewrite sin_period_Z, cos_period_Z.
Qed.

Definition spherical (g : Geodesic) : Prop := gd_f g = 0 /\ gd_f1 g = 1 /\ gd_ep2 g = 0 /\ 0 < gd_b g /\ gd_a g = gd_b g /\ gd_n g = 0.
Lemma get_spherical ell : ell_ok ell -> ell_a ell = ell_b ell -> spherical (get_geodesic ell) /\ gd_b (get_geodesic ell) = ell_a ell.
Proof.
  intros H E. destruct (L_ell.ell_pos ell H) as [Hb Ha]. pose proof (L_vincenty3.sphere_f ell H E) as F.
  unfold spherical, get_geodesic, geodesic_init. rewrite F, L_ell.resolve_a. cbn.
  repeat split; try lra; try (field; lra).
Qed.

Lemma sig_pair_eq sb co r : 0 <= r -> r ^ 2 = sb ^ 2 + co ^ 2 ->
  let '(s, c) := sig_pair sb co in r * s = sb /\ r * c = co /\ s ^ 2 + c ^ 2 = 1 /\ (r = 0 -> s = 0 /\ c = 1).
Proof.
  intros Hr E. unfold sig_pair. replace 0.0 with 0 by lra. replace 1.0 with 1 by lra.
  assert (G : r <> 0 -> let '(s, c) := norm2 sb co in r * s = sb /\ r * c = co /\ s ^ 2 + c ^ 2 = 1 /\ (r = 0 -> s = 0 /\ c = 1)).
  { intros N. unfold norm2. assert (h : hypot sb co = r) by (unfold hypot; rewrite <- E; apply sqrt_pow2; exact Hr).
    rewrite h. split; [field; exact N|]. split; [field; exact N|]. split; [|intros Z; contradiction].
    replace ((sb / r) ^ 2 + (co / r) ^ 2) with ((sb ^ 2 + co ^ 2) / r ^ 2) by (field; assumption). rewrite <- E. field. assumption. }
  destruct (Req_EM_T sb 0) as [->|N].
  - destruct (Req_EM_T co 0) as [->|N'].
    + repeat split; try reflexivity; nra.
    + apply G. intros ->. nra.
  - apply G. intros ->. nra.
Qed.

Lemma hypot_unfold x y : 0 <= hypot x y /\ hypot x y ^ 2 = x ^ 2 + y ^ 2.
Proof. split; [apply hypot_nonneg|apply hypot_pow2]. Qed.

Lemma eps_0 : eps_of 0 = 0.
Proof. unfold eps_of, Rdiv. ring. Qed.
Lemma Direct_sig12_sphere g k2 ss cs s12 : spherical g -> Direct_sig12 g k2 0 ss cs s12 = s12 / gd_b g.
Proof.
  intros (F0 & _). unfold Direct_sig12. cbv zeta. rewrite F0.
  rewrite A1_0. rewrite (series_zero true ss cs (arr (C1f 0))) by (intros; apply series_coeffs_0).
  rewrite (series_zero true _ _ (arr (C1pf 0))) by (intros; apply series_coeffs_0).
  destruct (Rlt_dec 0.01 (Rabs 0)) as [X|_]; [rewrite Rabs_R0 in X; lra|].
  replace (gd_b g * (1.0 + 0)) with (gd_b g) by lra. ring.
Qed.
(** Value of [Direct_end] on a sphere. *)
Lemma Direct_end_sphere g lon1 sa0 ca0 ss1 cs1 so1 co1 sg : spherical g ->
  Direct_end g lon1 0 sa0 ca0 ss1 cs1 so1 co1 sg =
  (let ss2 := ss1 * cos sg + cs1 * sin sg in
   let cs2 := cs1 * cos sg - ss1 * sin sg in
   let cbet2 := hypot sa0 (ca0 * cs2) in
   let zero := if Req_EM_T cbet2 0 then true else false in
   let cbet2 := if zero then k_tiny else cbet2 in
   let cs2 := if zero then k_tiny else cs2 in
   let E := copysign 1.0 sa0 in
   let omg := E * (sg - (atan2 ss2 cs2 - atan2 ss1 cs1) + (atan2 (E * (sa0 * ss2)) cs2 - atan2 (E * so1) co1)) in
   (degrees (atan2 (ca0 * ss2) cbet2), AngNormalize (lon1 + degrees omg), degrees (atan2 sa0 (ca0 * cs2)))).
Proof.
  intros (F0 & F1 & _). unfold Direct_end. rewrite F0, F1. cbv zeta. rewrite !atan2d_eq, Rmult_1_l.
  apply f_equal2; [apply f_equal2|]; [reflexivity| |reflexivity].
  apply (f_equal AngNormalize). apply (f_equal (Rplus lon1)). apply (f_equal degrees).
  replace (0 * A3f g 0 * sa0) with 0 by ring. rewrite Rmult_0_l, Rminus_0_r. reflexivity.
Qed.
Lemma Direct_sphere_val g lat1 lon1 azi1 s12 : spherical g -> k_tiny <= cos (radians lat1) ->
  Direct g lat1 lon1 azi1 s12 =
  (let sb := sin (radians lat1) in let cb := cos (radians lat1) in
   let sa := sin (radians azi1) in let ca := cos (radians azi1) in
   let '(ss1, cs1) := sig_pair sb (ca * cb) in
   Direct_end g lon1 0 (sa * cb) (hypot ca (sa * sb)) ss1 cs1 (sa * cb * sb) (ca * cb) (s12 / gd_b g)).
Proof.
  intros S T. pose proof S as (F0 & F1 & P & B & _). unfold Direct. rewrite sincosd_norm, AngRound_id, (reduced_sphere g lat1 F1 T).
  cbv zeta. destruct (sig_pair _ _) as [ss1 cs1]. rewrite P, Rmult_0_r, eps_0, Direct_sig12_sphere by exact S. reflexivity.
Qed.
