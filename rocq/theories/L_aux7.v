(** The code's auxiliary latitudes as instances of the series of L_aux1-L_aux6. *)
From Coq Require Import QArith List Reals Lra Lia Psatz.
Import ListNotations.
From Coquelicot Require Import Coquelicot.
From Verif Require Import PyMath L_PyMath M_ellipsoid M_ecef M_rcurve M_rsphere M_latitude M_lox Spec Spec_geodesic Spec_aux L_ell L_aer L_rcurve L_latitude L_poly L_series1 L_aux1 L_aux2 L_aux3 L_aux4 L_aux5 L_aux6.
From Verif Require L_latitude3.
Open Scope R_scope.

Lemma eq_on_derive f g df : f 0 = g 0 -> (forall t, - (PI / 2) <= t <= PI / 2 -> derivable_pt_lim f t (df t)) -> (forall t, - (PI / 2) <= t <= PI / 2 -> derivable_pt_lim g t (df t)) ->
  forall x, - (PI / 2) <= x <= PI / 2 -> f x = g x.
Proof.
  intros Z Df Dg x Hx. pose proof PI_RGT_0 as PP. destruct (MVT_gen (fun x => f x - g x) 0 x (fun _ => 0)) as (c & _ & E).
  - intros t Ht. apply is_derive_Reals. replace 0 with (df t - df t) by ring. assert (T : - (PI / 2) <= t <= PI / 2) by (revert Ht; unfold Rmin, Rmax; destruct (Rle_dec 0 x); lra).
    apply derivable_pt_lim_minus; [now apply Df|now apply Dg].
  - intros t Ht. assert (T : - (PI / 2) <= t <= PI / 2) by (revert Ht; unfold Rmin, Rmax; destruct (Rle_dec 0 x); lra).
    apply derivable_continuous_pt. exists (df t - df t). apply derivable_pt_lim_minus; [now apply Df|now apply Dg].
  - lra.
Qed.
Lemma prim_derive (f : R -> R) : (forall t, continuous f t) -> forall x, is_derive (fun x => RInt f 0 x) x (f x).
Proof.
  intros C x. apply (is_derive_RInt f (fun x => RInt f 0 x) 0 x); [|apply C].
  exists (mkposreal 1 Rlt_0_1). intros y _. apply (RInt_correct (V := R_CompleteNormedModule)). apply (ex_RInt_continuous (V := R_CompleteNormedModule)). intros z _. apply C.
Qed.
Section Prim.
Variable n : R.
Hypothesis Hn : 0 <= n <= 1 / 19.
Lemma rad2_pos c : Rabs c <= 1 -> 0 < rad2 n c.
Proof. intros H. destruct (rad2_lo n c Hn H) as [L _]. assert (0 < (1 - n) ^ 2) by (apply pow_lt; lra). lra. Qed.
Lemma rad2_posx x : 0 < rad2 n (cos (2 * x)). Proof. apply rad2_pos, cos_abs1. Qed.
Definition mer0 (x : R) : R := RInt (fun t => mrad n (cos (2 * t))) 0 x.
Definition ar0 (x : R) : R := RInt (fun t => cos t / rad2 n (cos (2 * t)) ^ 2) 0 x.
Lemma mer0_0 : mer0 0 = 0. Proof. exact (RInt_point (V := R_CompleteNormedModule) 0 _). Qed.
Lemma ar0_0 : ar0 0 = 0. Proof. exact (RInt_point (V := R_CompleteNormedModule) 0 _). Qed.
Lemma mer0_D x : is_derive mer0 x (mrad n (cos (2 * x))).
Proof.
  apply (prim_derive (fun t => mrad n (cos (2 * t)))). intros t. apply (ex_derive_continuous (fun t => mrad n (cos (2 * t)))). pose proof (rad2_posx t) as P. unfold mrad, rad2 in *. auto_derive.
  replace (1 + 2 * n * cos (2 * t) + n * (n * 1)) with (1 + 2 * n * cos (2 * t) + n ^ 2) by ring. split; [exact P|]. split; [|exact I].
  pose proof (sqrt_lt_R0 _ P) as Q. set (w := sqrt _) in *. assert (0 < w * (w * (w * 1))) by (repeat apply Rmult_lt_0_compat; lra). lra.
Qed.
Lemma ar0_D x : is_derive ar0 x (cos x / rad2 n (cos (2 * x)) ^ 2).
Proof.
  apply (prim_derive (fun t => cos t / rad2 n (cos (2 * t)) ^ 2)). intros t. apply (ex_derive_continuous (fun t => cos t / rad2 n (cos (2 * t)) ^ 2)). pose proof (rad2_posx t) as P. unfold rad2 in *. auto_derive.
  replace (1 + 2 * n * cos (2 * t) + n * (n * 1)) with (1 + 2 * n * cos (2 * t) + n ^ 2) by ring. apply Rgt_not_eq. apply Rmult_lt_0_compat; [exact P|]. lra.
Qed.
End Prim.

Section E.
Variables (ell : option Ellipsoid) (H : ell_ok ell).
Let a := ell_a ell.
Let b := ell_b ell.
Hypothesis HF : 9 * a <= 10 * b.
Let n := third a b.
Let A := (a + b) / 2.
Lemma Hb0 : 0 < b. Proof. apply (ell_pos ell H). Qed.
Lemma Hab0 : b <= a. Proof. apply (ell_pos ell H). Qed.
Lemma n_range : 0 <= n <= 1 / 19.
Proof.
  pose proof Hb0. pose proof Hab0. unfold n, third. split; [apply Rle_mult_inv_pos; lra|].
  apply Rmult_le_reg_r with (a + b); [lra|]. unfold Rdiv at 1. rewrite Rmult_assoc, Rinv_l, Rmult_1_r by lra. lra.
Qed.
Lemma A_pos : 0 < A. Proof. pose proof Hb0. pose proof Hab0. unfold A. lra. Qed.
Lemma a_A : a = A * (1 + n). Proof. pose proof Hb0. pose proof Hab0. unfold A, n, third. field. lra. Qed.
Lemma b_A : b = A * (1 - n). Proof. pose proof Hb0. pose proof Hab0. unfold A, n, third. field. lra. Qed.
Lemma W_rad t : (a * cos t) ^ 2 + (b * sin t) ^ 2 = A ^ 2 * rad2 n (cos (2 * t)).
Proof. rewrite a_A, b_A, cos_2a_cos. unfold rad2. pose proof (sc1 t) as S. replace ((A * (1 - n) * sin t) ^ 2) with ((A * (1 - n)) ^ 2 * (sin t * sin t)) by ring. replace (sin t * sin t) with (1 - cos t * cos t) by lra. ring. Qed.
Lemma W_sqrt t : hypot (a * cos t) (b * sin t) = A * sqrt (rad2 n (cos (2 * t))).
Proof.
  pose proof A_pos. apply hypot_uniq; [apply Rmult_le_pos; [lra|apply sqrt_pos]|]. rewrite W_rad.
  pose proof (rad2_posx n n_range t) as P. replace (A * sqrt (rad2 n (cos (2 * t))) * (A * sqrt (rad2 n (cos (2 * t))))) with (A ^ 2 * (sqrt (rad2 n (cos (2 * t))) * sqrt (rad2 n (cos (2 * t))))) by ring. rewrite sqrt_sqrt by lra. reflexivity.
Qed.
Lemma meridian_mrad t : meridian t ell false = A * mrad n (cos (2 * t)).
Proof.
  rewrite (meridian_W ell H). cbn [rad_in]. fold a b. rewrite W_sqrt. unfold mrad. pose proof A_pos. pose proof (sqrt_lt_R0 _ (rad2_posx n n_range t)).
  rewrite a_A, b_A. field. split; lra.
Qed.
Lemma parallel_rad t : parallel t ell false = cos t * (a ^ 2 / (A * sqrt (rad2 n (cos (2 * t))))).
Proof. unfold parallel. rewrite (transverse_W ell H). cbn [rad_in]. fold a b. now rewrite W_sqrt. Qed.
Lemma surface_ecef p l : surface_point a b p l = geodetic2ecef p l 0 ell false.
Proof. unfold surface_point, geodetic2ecef. cbn [rad_in]. rewrite resolve_a, resolve_b. fold a b. unfold hypot. apply f_equal2; [apply f_equal2|]; ring. Qed.
Lemma speed phi v : vderive (fun p => surface_point a b p 0) phi v -> v = vscale (meridian phi ell false) (north_axis phi 0).
Proof.
  intros (D1 & D2 & D3). destruct (D_lat ell H phi 0 0) as (E1 & E2 & E3). destruct v as [[v1 v2] v3]. cbn [fst snd] in *.
  apply is_derive_Reals in E1, E2, E3. rewrite !Rplus_0_r in *. unfold north_axis, vscale in *.
  assert (X : forall (pr : vec3 -> R) l m, derivable_pt_lim (fun x => pr (surface_point a b x 0)) phi l -> derivable_pt_lim (fun t => pr (geodetic2ecef t 0 0 ell false)) phi m -> l = m).
  { intros pr l m P Q. apply (uniqueness_limite (fun x => pr (surface_point a b x 0)) phi); [exact P|]. apply is_derive_Reals. apply is_derive_Reals in Q. revert Q. apply is_derive_ext. intros t. now rewrite surface_ecef. }
  rewrite (X (fun p => fst (fst p)) _ _ D1 E1), (X (fun p => snd (fst p)) _ _ D2 E2), (X (fun p => snd p) _ _ D3 E3). reflexivity.
Qed.
Lemma speed_ex phi : vderive (fun p => surface_point a b p 0) phi (vscale (meridian phi ell false) (north_axis phi 0)).
Proof.
  destruct (D_lat ell H phi 0 0) as (E1 & E2 & E3). rewrite Rplus_0_r in *. unfold vderive, north_axis, vscale. cbn [fst snd].
  split; [|split]; apply is_derive_Reals; [revert E1|revert E2|revert E3]; apply is_derive_ext; intros t; now rewrite surface_ecef.
Qed.
Lemma north_norm k phi l : 0 <= k -> vnorm (vscale k (north_axis phi l)) = k.
Proof.
  intros Hk. unfold vnorm, vdot, vscale, north_axis. replace (_ + _ + _) with (k ^ 2 * (sin phi * sin phi * (sin l * sin l + cos l * cos l) + cos phi * cos phi)) by ring.
  rewrite !sc1, Rmult_1_r, sc1, Rmult_1_r. now apply sqrt_pow2.
Qed.
Lemma meridian_nonneg phi : 0 <= meridian phi ell false. Proof. left. apply (meridian_pos ell H). Qed.
(** true meridian length *)
Lemma length_mer s : meridian_length a b s -> forall x, - (PI / 2) <= x <= PI / 2 -> s x = A * mer0 n x.
Proof.
  intros [Z D]. apply eq_on_derive with (df := fun x => A * mrad n (cos (2 * x))).
  - rewrite Z, mer0_0. ring.
  - intros t Ht. destruct (D t ltac:(lra)) as (v & V & L). rewrite (speed t v V), north_norm, meridian_mrad in L by apply meridian_nonneg. exact L.
  - intros t _. apply derivable_pt_lim_scal, is_derive_Reals, mer0_D, n_range.
Qed.
Lemma length_ex : meridian_length a b (fun x => A * mer0 n x).
Proof.
  split; [rewrite mer0_0; ring|]. intros phi _. eexists. split; [apply speed_ex|]. rewrite north_norm, meridian_mrad by apply meridian_nonneg.
  apply derivable_pt_lim_scal, is_derive_Reals, mer0_D, n_range.
Qed.
Let kA := 2 * PI * (a ^ 4 * b ^ 2 / A ^ 4).
Lemma kA_pos : 0 < kA.
Proof. pose proof Hb0. pose proof Hab0. pose proof A_pos. pose proof PI_RGT_0. unfold kA. apply Rmult_lt_0_compat; [lra|]. apply Rdiv_lt_0_compat; [apply Rmult_lt_0_compat|]; apply pow_lt; lra. Qed.
Lemma zone_rate t : 2 * PI * fst (fst (surface_point a b t 0)) * meridian t ell false = kA * (cos t / rad2 n (cos (2 * t)) ^ 2).
Proof.
  unfold surface_point. cbn [fst]. rewrite cos_0, Rmult_1_r. rewrite (meridian_W ell H). cbn [rad_in]. fold a b. fold (hypot (a * cos t) (b * sin t)). rewrite W_sqrt.
  pose proof (rad2_posx n n_range t) as P. pose proof A_pos. pose proof (sqrt_lt_R0 _ P) as Q. unfold kA.
  assert (S : sqrt (rad2 n (cos (2 * t))) ^ 2 = rad2 n (cos (2 * t))) by (rewrite <- Rsqr_pow2; apply Rsqr_sqrt; lra). rewrite <- S at 3. field. lra.
Qed.
Lemma zone_ar S : zone_area a b S -> forall x, - (PI / 2) <= x <= PI / 2 -> S x = kA * ar0 n x.
Proof.
  intros [Z D]. apply eq_on_derive with (df := fun x => kA * (cos x / rad2 n (cos (2 * x)) ^ 2)).
  - rewrite Z, ar0_0. ring.
  - intros t Ht. destruct (D t ltac:(lra)) as (v & V & L). rewrite (speed t v V), north_norm, zone_rate in L by apply meridian_nonneg. exact L.
  - intros t _. apply derivable_pt_lim_scal, is_derive_Reals, ar0_D, n_range.
Qed.
Lemma zone_ex : zone_area a b (fun x => kA * ar0 n x).
Proof.
  split; [rewrite ar0_0; ring|]. intros phi _. eexists. split; [apply speed_ex|]. rewrite north_norm, zone_rate by apply meridian_nonneg.
  apply derivable_pt_lim_scal, is_derive_Reals, ar0_D, n_range.
Qed.
Lemma rect_mu s x : meridian_length a b s -> - (PI / 2) <= x <= PI / 2 -> rectifying_latitude s x = mu (mer0 n) x.
Proof.
  intros L Hx. pose proof PI_RGT_0. unfold rectifying_latitude, mu. rewrite !(length_mer s L) by lra. pose proof A_pos.
  pose proof (quad_pos n n_range (mer0 n) (mer0_D n n_range) (mer0_0 n)). field. split; lra.
Qed.
Lemma auth_xi0 S x : zone_area a b S -> - (PI / 2) <= x <= PI / 2 -> authalic_latitude S x = xi (ar0 n) x.
Proof.
  intros L Hx. pose proof PI_RGT_0. unfold authalic_latitude, xi. rewrite !(zone_ar S L) by lra. pose proof kA_pos.
  destruct (arp_pos n n_range (ar0 n) (ar0_D n n_range) (ar0_0 n)) as [_ P]. f_equal. field. split; lra.
Qed.
(** the code's functions *)
Let e := eccentricity (resolve_ellipsoid ell).
Lemma e2_n : e ^ 2 = 4 * n / (1 + n) ^ 2.
Proof.
  unfold e. rewrite (ell_e2 ell H). fold a b. pose proof A_pos. pose proof n_range. rewrite a_A, b_A. field. split; lra.
Qed.
Lemma sin_mult k x y : y = k * x -> sin y = sin (k * x). Proof. intros ->. reflexivity. Qed.
Ltac angles x := replace (2 * (4 * x)) with (8 * x) by ring; replace (2 * (3 * x)) with (6 * x) by ring; replace (2 * (2 * x)) with (4 * x) by ring.
Lemma rect_code x : geodetic2rectifying x ell false = ssum (rcode n) x.
Proof. unfold geodetic2rectifying. cbn [rad_in deg_out]. rewrite (ell_n ell H). fold a b. fold (third a b). fold n. unfold ssum, del, rcode. cbn [k1 k2 k3 k4 k5 k6 k7]. angles x. field. Qed.
Lemma recti_code x : rectifying2geodetic x ell false = ssum (ricode n) x.
Proof. unfold rectifying2geodetic. cbn [rad_in deg_out]. rewrite (ell_n ell H). fold a b. fold (third a b). fold n. unfold ssum, del, ricode. cbn [k1 k2 k3 k4 k5 k6 k7]. angles x. field. Qed.
Lemma auth_code x : geodetic2authalic x ell false = ssum (acode (e ^ 2)) x.
Proof. unfold geodetic2authalic. cbn [rad_in deg_out]. fold e. unfold ssum, del, acode. cbn [k1 k2 k3 k4 k5 k6 k7]. angles x. field. Qed.
Lemma authi_code x : authalic2geodetic x ell false = ssum (aicode (e ^ 2)) x.
Proof. unfold authalic2geodetic. cbn [rad_in deg_out]. fold e. unfold ssum, del, aicode. cbn [k1 k2 k3 k4 k5 k6 k7]. angles x. field. Qed.
Lemma conf_code x : conformal2geodetic x ell false = ssum (ccode (e ^ 2)) x.
Proof. unfold conformal2geodetic. cbn [rad_in deg_out]. fold e. unfold ssum, del, ccode. cbn [k1 k2 k3 k4 k5 k6 k7]. angles x. field. Qed.
End E.
