(** Lemmas about lox.py *)
From Coq Require Import Lia.
From Coquelicot Require Import Coquelicot.
From Verif Require Import PyMath M_ellipsoid M_rcurve M_rsphere M_latitude M_utils M_nvector M_lox Spec.
From Verif Require Import L_PyMath L_ell L_rcurve L_rsphere L_latitude L_latitude2 L_latitude3.
Open Scope R_scope.

Definition wrapdist (x : R) : R := Rmin (py_mod x (2 * PI)) (2 * PI - py_mod x (2 * PI)).
Lemma wrapdist_spec x : 0 <= wrapdist x <= PI /\ (exists k : Z, wrapdist x = Rabs (x - IZR k * (2 * PI))) /\
  forall k : Z, wrapdist x <= Rabs (x - IZR k * (2 * PI)).
Proof.
  unfold wrapdist. pose proof PI_RGT_0 as P.
  pose proof (py_mod_range x (2 * PI) ltac:(lra)) as Rg. destruct (py_mod_congr x (2 * PI) ltac:(lra)) as [j Ej].
  set (d := py_mod x (2 * PI)) in *.
  assert (Ex : x = d + - IZR j * (2 * PI)) by (rewrite Ej; ring). clearbody d.
  split; [unfold Rmin; destruct (Rle_dec d (2 * PI - d)); lra|]. split.
  - unfold Rmin. destruct (Rle_dec d (2 * PI - d)).
    + exists (- j)%Z. rewrite opp_IZR. rewrite Rabs_pos_eq; lra.
    + exists (1 - j)%Z. rewrite minus_IZR. rewrite Rabs_left; lra.
  - intros k. assert (Hm : Rmin d (2 * PI - d) <= d /\ Rmin d (2 * PI - d) <= 2 * PI - d) by (split; [apply Rmin_l|apply Rmin_r]).
    replace (x - IZR k * (2 * PI)) with (d - IZR (j + k) * (2 * PI)) by (rewrite plus_IZR; lra).
    destruct (Z_le_gt_dec (j + k) 0) as [L|L].
    + apply IZR_le in L. rewrite Rabs_pos_eq; nra.
    + assert (L' : (1 <= j + k)%Z) by lia. apply IZR_le in L'. rewrite Rabs_left1; nra.
Qed.
Lemma wrapdist_unique x d : (exists k : Z, d = Rabs (x - IZR k * (2 * PI))) ->
  (forall k : Z, d <= Rabs (x - IZR k * (2 * PI))) -> wrapdist x = d.
Proof.
  intros [k Hk] H. destruct (wrapdist_spec x) as (_ & [j Hj] & W). apply Rle_antisym.
  - rewrite Hk. apply W.
  - rewrite Hj. apply H.
Qed.
Lemma wrapdist_opp x : wrapdist (- x) = wrapdist x.
Proof.
  destruct (wrapdist_spec x) as (_ & [j Hj] & W). apply wrapdist_unique.
  - exists (- j)%Z. rewrite Hj, opp_IZR, <- Rabs_Ropp. f_equal. ring.
  - intros k. specialize (W (- k)%Z). rewrite opp_IZR in W. rewrite <- Rabs_Ropp. 
    replace (- (- x - IZR k * (2 * PI))) with (x - - IZR k * (2 * PI)) by ring. exact W.
Qed.
Lemma wrapdist_period x k : wrapdist (x + IZR k * (2 * PI)) = wrapdist x.
Proof.
  destruct (wrapdist_spec x) as (_ & [j Hj] & W). apply wrapdist_unique.
  - exists (j + k)%Z. rewrite Hj, plus_IZR. f_equal. ring.
  - intros i. specialize (W (i - k)%Z). rewrite minus_IZR in W.
    replace (x + IZR k * (2 * PI) - IZR i * (2 * PI)) with (x - (IZR i - IZR k) * (2 * PI)) by ring. exact W.
Qed.
Lemma wrapdist_small x : Rabs x <= PI -> wrapdist x = Rabs x.
Proof.
  intros H. pose proof PI_RGT_0 as P. apply wrapdist_unique.
  - exists 0%Z. f_equal. ring.
  - intros k. destruct (Z.eq_dec k 0) as [->|Hk]; [right; f_equal; ring|].
    apply Rabs_def2b in H || apply Rabs_le_between in H.
    destruct (Z_lt_ge_dec k 0) as [L|L].
    + assert (L' : (k <= -1)%Z) by lia. apply IZR_le in L'. rewrite (Rabs_pos_eq (x - _)) by nra. unfold Rabs; destruct (Rcase_abs x); nra.
    + assert (L' : (1 <= k)%Z) by lia. apply IZR_le in L'. rewrite (Rabs_left1 (x - _)) by nra. unfold Rabs; destruct (Rcase_abs x); nra.
Qed.
Lemma wrapdist_triangle x y : wrapdist (x + y) <= wrapdist x + wrapdist y.
Proof.
  destruct (wrapdist_spec x) as (_ & [j Hj] & _). destruct (wrapdist_spec y) as (_ & [k Hk] & _).
  destruct (wrapdist_spec (x + y)) as (_ & _ & W). specialize (W (j + k)%Z). rewrite plus_IZR in W.
  rewrite Hj, Hk. eapply Rle_trans; [exact W|]. eapply Rle_trans; [|apply Rabs_triang]. right. f_equal. ring.
Qed.
Lemma departure_wrap l1 l2 lat ell deg :
  departure l1 l2 lat ell deg = parallel (rad_in deg lat) ell false * wrapdist (rad_in deg l2 - rad_in deg l1).
Proof. reflexivity. Qed.

(** Meridian arcs *)
Lemma rect_pos ell : ell_ok ell -> 0 < rectifying ell.
Proof. intros H. pose proof (ell_pos ell H). pose proof (rectifying_bounds ell H). lra. Qed.
Lemma arc_rad l1 l2 ell deg : meridian_arc l1 l2 ell deg = meridian_arc (rad_in deg l1) (rad_in deg l2) ell false.
Proof. reflexivity. Qed.
Lemma arc_sym l1 l2 ell deg : meridian_arc l1 l2 ell deg = meridian_arc l2 l1 ell deg.
Proof. unfold meridian_arc. cbv zeta. rewrite Rabs_minus_sym. reflexivity. Qed.
Lemma arc_nonneg l1 l2 ell deg : ell_ok ell -> 0 <= meridian_arc l1 l2 ell deg.
Proof. intros H. unfold meridian_arc. apply Rmult_le_pos; [left; now apply rect_pos|apply Rabs_pos]. Qed.
Lemma arc_same l ell deg : meridian_arc l l ell deg = 0.
Proof. unfold meridian_arc. cbv zeta. rewrite Rminus_eq_0, Rabs_R0. ring. Qed.
Lemma arc_additive l1 l2 l3 ell deg : ell_ok ell -> 3 * ell_a ell <= 4 * ell_b ell ->
  - quarter deg <= l1 -> l1 <= l2 -> l2 <= l3 -> l3 <= quarter deg ->
  meridian_arc l1 l3 ell deg = meridian_arc l1 l2 ell deg + meridian_arc l2 l3 ell deg.
Proof.
  intros H Hf A B C D.
  pose proof (proj2 (rectifying_props ell H false) Hf) as Inc. unfold increasing_on in Inc. cbn [quarter] in Inc.
  assert (Q : forall x, - quarter deg <= x <= quarter deg -> - (PI / 2) <= rad_in deg x <= PI / 2).
  { intros x Hx. apply rad_range in Hx. lra. }
  assert (Mo : forall x y, x <= y -> rad_in deg x <= rad_in deg y).
  { intros x y L. destruct deg; cbn; unfold radians; pose proof PI_RGT_0; nra. }
  assert (Le : forall x y, - quarter deg <= x -> x <= y -> y <= quarter deg ->
    geodetic2rectifying (rad_in deg x) ell false <= geodetic2rectifying (rad_in deg y) ell false).
  { intros x y X1 X2 X3. destruct (Mo x y X2) as [L|E]; [|rewrite E; lra]. left.
    apply Inc; [apply Q; lra|exact L|apply Q; lra]. }
  unfold meridian_arc. cbv zeta.
  pose proof (Le l1 l2 A B ltac:(lra)). pose proof (Le l2 l3 ltac:(lra) C D). pose proof (Le l1 l3 A ltac:(lra) D).
  rewrite !Rabs_pos_eq by lra. ring.
Qed.
Lemma arc_pos l1 l2 ell deg : ell_ok ell -> 3 * ell_a ell <= 4 * ell_b ell ->
  - quarter deg <= l1 <= quarter deg -> - quarter deg <= l2 <= quarter deg -> l1 <> l2 ->
  0 < meridian_arc l1 l2 ell deg.
Proof.
  intros H Hf A B C.
  assert (G : forall x y, - quarter deg <= x -> x < y -> y <= quarter deg -> 0 < meridian_arc x y ell deg).
  { intros x y X1 X2 X3. pose proof (proj2 (rectifying_props ell H false) Hf) as Inc.
    unfold increasing_on in Inc. cbn [quarter] in Inc.
    assert (Q : forall x, - quarter deg <= x <= quarter deg -> - (PI / 2) <= rad_in deg x <= PI / 2).
    { intros u Hu. apply rad_range in Hu. lra. }
    assert (L : rad_in deg x < rad_in deg y) by (destruct deg; cbn; unfold radians; pose proof PI_RGT_0; nra).
    pose proof (Inc (rad_in deg x) (rad_in deg y) (proj1 (Q x ltac:(lra))) L (proj2 (Q y ltac:(lra)))) as I.
    unfold meridian_arc. apply Rmult_lt_0_compat; [now apply rect_pos|]. apply Rabs_pos_lt. lra. }
  destruct (Rtotal_order l1 l2) as [L|[L|L]]; [apply G; lra|contradiction|rewrite arc_sym; apply G; lra].
Qed.
Lemma sphere_n ell : ell_ok ell -> ell_a ell = ell_b ell -> thirdflattening (resolve_ellipsoid ell) = 0.
Proof. intros H E. rewrite (ell_n ell H), E. unfold Rdiv. rewrite Rminus_eq_0. ring. Qed.
Lemma sphere_rect x ell : ell_ok ell -> ell_a ell = ell_b ell -> geodetic2rectifying x ell false = x.
Proof. intros H E. unfold geodetic2rectifying. cbn [rad_in deg_out]. rewrite (sphere_n ell H E). field. Qed.
Lemma sphere_rect_inv x ell : ell_ok ell -> ell_a ell = ell_b ell -> rectifying2geodetic x ell false = x.
Proof. intros H E. unfold rectifying2geodetic. cbn [rad_in deg_out]. rewrite (sphere_n ell H E). field. Qed.
Lemma sphere_radius ell : ell_ok ell -> ell_a ell = ell_b ell -> rectifying ell = ell_a ell.
Proof. intros H E. pose proof (rectifying_bounds ell H). lra. Qed.
Lemma sphere_arc l1 l2 ell deg : ell_ok ell -> ell_a ell = ell_b ell ->
  meridian_arc l1 l2 ell deg = ell_a ell * Rabs (rad_in deg l2 - rad_in deg l1).
Proof. intros H E. unfold meridian_arc. cbv zeta. rewrite !sphere_rect, sphere_radius by assumption. reflexivity. Qed.

(** Isometric latitude away from the poles *)
Lemma iso_fin x ell : ell_ok ell -> 1 / 1000000000 < cos x -> exists v, geodetic2isometric x ell false = Fin v /\
  v = iso_expr (eccentricity (resolve_ellipsoid ell)) x.
Proof.
  intros H Hc. eexists. split; [|reflexivity]. unfold geodetic2isometric. cbn [rad_in deg_out xdeg_out].
  destruct (Rle_dec (Rabs (cos x)) COS_EPS) as [L|L]; [|reflexivity].
  rewrite Rabs_right in L; unfold COS_EPS in *; lra.
Qed.
Lemma abs_cos_atan2 y x : x <> 0 -> Rabs (cos (atan2 y x)) = Rabs x / hypot x y /\ 0 < hypot x y.
Proof.
  intros Hx. assert (Hh : 0 < hypot x y) by (unfold hypot; apply sqrt_lt_R0; nra).
  split; [|exact Hh]. rewrite <- (hypot_cos_atan2 y x) at 2. rewrite Rabs_mult, (Rabs_pos_eq (hypot x y)) by lra. field. lra.
Qed.
Lemma atan2_0pos x : 0 < x -> atan2 0 x = 0.
Proof. intros. rewrite atan2_pos by assumption. unfold Rdiv. rewrite Rmult_0_l. apply atan_0. Qed.
Lemma atan2_0neg x : x < 0 -> atan2 0 x = PI.
Proof.
  intros. unfold atan2. destruct (Rlt_dec 0 x); [lra|]. destruct (Rlt_dec x 0); [|lra].
  destruct (Rle_dec 0 0); [|lra]. unfold Rdiv. rewrite Rmult_0_l, atan_0. ring.
Qed.
Lemma atan2_y0 y : y <> 0 -> atan2 y 0 = if Rlt_dec 0 y then PI / 2 else - PI / 2.
Proof.
  intros. unfold atan2. destruct (Rlt_dec 0 0); [lra|]. destruct (Rlt_dec 0 y); [reflexivity|].
  destruct (Rlt_dec y 0); [reflexivity|lra].
Qed.
Lemma ok_pair_inj {A B} (a c : A) (b d : B) : Ok (a, b) = Ok (c, d) -> a = c /\ b = d.
Proof. intros E. injection E as -> ->. split; reflexivity. Qed.
