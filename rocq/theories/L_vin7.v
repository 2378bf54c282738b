(** Error bounds of vreckon and vdist in closed form; arrays of ranges; small facts on angles. *)
From Coq Require Import QArith Reals List Lra Lia Psatz. Import ListNotations.
From Coquelicot Require Import Coquelicot.
From Verif Require Import PyMath M_ellipsoid M_vincenty Spec Spec_geodesic L_PyMath L_nvector L_vincenty L_vincenty2 L_vincenty3 L_vincenty4 L_geodesic4 L_geodesic7 L_vin1 L_vin2 L_vin3 L_vin4 L_vin5 L_vin6.
From Verif Require L_ecefacc2 L_ecef.
Open Scope R_scope.

Lemma series_err f : 0 <= f <= 1 / 100 -> derr (ep2 f) + f * lerr f <= f ^ 4 / 5.
Proof.
  intros F. assert (E : 0 <= ep2 f <= 205 / 100 * f).
  { split; [apply (ep2_range f F)|]. unfold ep2. assert (0 < (1 - f) ^ 2) by (apply pow_lt; lra). apply Rmult_le_reg_r with ((1 - f) ^ 2); [assumption|].
    unfold Rdiv at 1. rewrite Rmult_assoc, Rinv_l by lra. nra. }
  apply derr_incr in E. assert (F4 : 0 <= f ^ 4) by (apply pow_le; lra). assert (F5 : 0 <= f ^ 4 * f <= f ^ 4 * (1 / 100)) by (split; [apply Rmult_le_pos; lra|apply Rmult_le_compat_l; lra]).
  assert (Q : derr (205 / 100 * f) <= f ^ 4 * (11 / 1000) + 21 / 10 * (f ^ 4 * f)).
  { unfold derr. replace ((205 / 100 * f) ^ 4) with (f ^ 4 * (205 / 100) ^ 4) by ring. replace (f ^ 4 * (205 / 100) ^ 4 * (1 / 1700 + 205 / 100 * f / 18)) with (f ^ 4 * ((205 / 100) ^ 4 / 1700) + (205 / 100) ^ 5 / 18 * (f ^ 4 * f)) by field. simpl ((205 / 100) ^ 4). simpl ((205/100) ^ 5). lra. }
  assert (QL : f * lerr f = f ^ 4 * (1 / 7) + 2 * (f ^ 4 * f)) by (unfold lerr; ring).
  rewrite QL. lra.
Qed.
Lemma vin_A_up u : 0 <= u <= 1 / 40 -> vin_A u <= 101 / 100.
Proof.
  intros H. unfold vin_A. replace (1 + u / 16384 * (4096 + u * (-768 + u * (320 - 175 * u)))) with (1 + u / 4 - u ^ 2 * (768 - u * (320 - 175 * u)) / 16384) by field.
  assert (0 <= 768 - u * (320 - 175 * u)) by nra. pose proof (pow2_ge_0 u). assert (0 <= u ^ 2 * (768 - u * (320 - 175 * u))) by (apply Rmult_le_pos; lra). lra.
Qed.
Lemma loop_out k base : forall fuel s0 sP s, vreck_loop fuel k base s0 = Some (sP, s) -> 0 <= r_B k <= 1 / 4 -> Rabs (s0 - base) <= 2 / 3 ->
  s = vreck_next k base sP /\ Rabs (s - sP) <= 1 / 10 ^ 12 /\ Rabs (sP - base) <= 2 / 3.
Proof.
  induction fuel as [|n IH]; intros s0 sP s H HB H0; [discriminate|]. cbn [vreck_loop] in H. destruct (Rlt_dec _ _) as [G|G].
  - apply IH in H; [exact H|exact HB|]. rewrite vreck_next_eq. replace (base + dsig (r_B k) (r_sigma1 k) s0 - base) with (dsig (r_B k) (r_sigma1 k) s0) by ring. now apply dsig_bound.
  - injection H as <- <-. split; [reflexivity|]. split; [lra|exact H0].
Qed.
Theorem reck_final a f lat lon az rng c t sP s : 0 < a -> 0 <= f <= 1 / 100 -> 0 < cos lat ->
  let b := a * (1 - f) in let k := vreck_init a b f lat az in
  unit_geodesic a b c t -> c 0 = surface_point a b lat lon -> t 0 = heading_vector lat lon az -> 0 <= rng ->
  s = vreck_next k (rng / (b * r_A k)) sP -> Rabs (s - sP) <= 1 / 10 ^ 12 -> Rabs (sP - rng / (b * r_A k)) <= 2 / 3 ->
  vdist3 (surface_point a b (fst (vreck_end f lon k sP s)) (snd (vreck_end f lon k sP s))) (c rng) <= a * (103 / 100 / 10 ^ 12 + f ^ 4 / 5 * (rng / b + 1)).
Proof.
  intros Pa F HC b k G G0 G1 Hr Es Gap Sp. assert (Pb : 0 < b <= a) by (unfold b; split; [apply Rmult_lt_0_compat; lra|nra]).
  assert (M : a ^ 2 <= 2 * b ^ 2) by (unfold b; rewrite Rpow_mult_distr; assert (1 / 2 <= (1 - f) ^ 2) by nra; pose proof (pow2_ge_0 a); nra).
  destruct (vreck_init_ok a b f lat az (proj1 Pb) (proj2 Pb) M) as [KB KA]. fold k in KB, KA.
  pose proof (vreck_accuracy a f lat lon az rng c t sP s Pa F HC) as Q. cbv zeta in Q. fold b in Q. fold k in Q. specialize (Q G G0 G1 Es KA).
  eapply Rle_trans; [exact Q|]. clear Q G G0 G1.
  assert (UA : r_A k <= 101 / 100).
  { unfold k. rewrite vreck_init_eq. cbn [r_A]. pose proof (vin_start f lat az) as VS. cbv zeta in VS. set (x := 1 - _ * _) in *. apply vin_A_up.
    replace (x * (a ^ 2 - b ^ 2) / b ^ 2) with (x * ep2 f) by (unfold ep2, b; field; lra). pose proof (ep2_range f F). destruct VS as [X _]. split; [apply Rmult_le_pos; lra|nra]. }
  set (g := Rabs (s - sP)) in *. set (S := Rabs sP) in *. pose proof (Rabs_pos (s - sP)) as Hg. fold g in Hg. pose proof (Rabs_pos sP) as HS. fold S in HS.
  assert (RB : rng / (b * r_A k) <= rng / b).
  { unfold Rdiv. apply Rmult_le_compat_l; [exact Hr|]. apply Rinv_le_contravar; [lra|nra]. }
  assert (RP : 0 <= rng / (b * r_A k)) by (apply Rmult_le_pos; [exact Hr|left; apply Rinv_0_lt_compat; apply Rmult_lt_0_compat; lra]).
  assert (S1 : S <= rng / b + 1). { unfold S. replace sP with (sP - rng / (b * r_A k) + rng / (b * r_A k)) by ring. eapply Rle_trans; [apply Rabs_triang|]. rewrite (Rabs_right (rng / (b * r_A k))) by lra. lra. }
  pose proof (series_err f F) as SE. pose proof (derr_pos _ (proj1 (ep2_range f F))) as D0. pose proof (lerr_pos f (proj1 F)) as L0.
  set (D := derr (ep2 f)) in *. set (LL := lerr f) in *.
  apply Rle_trans with (a * (r_A k * g + D * S) + a * (f * (g + LL * S))).
  - apply Rplus_le_compat_r, Rmult_le_compat_r; [|lra]. apply Rplus_le_le_0_compat; apply Rmult_le_pos; lra.
  - rewrite <- Rmult_plus_distr_l. apply Rmult_le_compat_l; [lra|].
    replace (r_A k * g + D * S + f * (g + LL * S)) with ((r_A k + f) * g + (D + f * LL) * S) by ring. apply Rplus_le_compat.
    + replace (103 / 100 / 10 ^ 12) with (103 / 100 * (1 / 10 ^ 12)) by (simpl; field). apply Rmult_le_compat; lra.
    + assert (0 <= f * LL) by (apply Rmult_le_pos; lra). apply Rmult_le_compat; lra.
Qed.
(** What the loop on arrays returns. *)
Lemma loop_array_out k : 0 <= r_B k <= 1 / 4 -> forall fuel bases ss l, vreck_loop_array fuel k bases ss = Some l ->
  Forall2 (fun s b => Rabs (s - b) <= 2 / 3) ss bases ->
  Forall2 (fun '(sP, s) b => s = vreck_next k b sP /\ Rabs (s - sP) <= 1 / 10 ^ 12 /\ Rabs (sP - b) <= 2 / 3) l bases.
Proof.
  intros HB. induction fuel as [|n IH]; intros bases ss l H H0; [discriminate|]. cbn [vreck_loop_array] in H. cbv zeta in H. set (ss' := map _ (combine bases ss)) in H. destruct (existsb _ _) eqn:X.
  - apply (IH _ _ _ H). unfold ss'. clear - HB H0. induction H0 as [|s b ss bs Q _ IH]; [constructor|]. cbn [combine map]. constructor; [|exact IH].
    rewrite vreck_next_eq. replace (b + dsig (r_B k) (r_sigma1 k) s - b) with (dsig (r_B k) (r_sigma1 k) s) by ring. now apply dsig_bound.
  - assert (E : combine ss ss' = l) by (injection H; auto). subst l. unfold ss' in *. clear - H0 X. induction H0 as [|s b ss bs Q _ IH]; [constructor|]. cbn [combine map existsb] in *. apply Bool.orb_false_iff in X. destruct X as [X1 X2]. constructor; [|exact (IH X2)].
    split; [reflexivity|]. destruct (Rlt_dec _ _) in X1; [discriminate|]. split; [lra|exact Q].
Qed.
(** Reduced and geodetic latitude differ by less than 2 f. *)
Lemma reduced_near f phi lon : 0 <= f <= 1 / 100 -> 0 < cos phi -> unit_angle (unit_normal phi lon) (unit_normal (reduced_lat f phi) lon) <= 2 * f.
Proof.
  intros F HC. destruct (reduced_reduces f phi ltac:(lra) HC) as (h & Hh & A & B). set (U := reduced_lat f phi) in *. set (y := unit_angle _ _).
  assert (CY : cos y = cos (phi - U)).
  { unfold y. rewrite cos_angle by apply L_ecef.unit_normal_unit. unfold unit_normal. cbn [vdot]. rewrite cos_minus. pose proof (sc1 lon) as Q. assert (Q' : sin lon ^ 2 = 1 - cos lon ^ 2) by nra. ring [Q']. }
  assert (S0 : sin (phi - U) = f * sin phi * cos U).
  { rewrite sin_minus. apply Rmult_eq_reg_r with h; [|lra]. replace ((sin phi * cos U - cos phi * sin U) * h) with (sin phi * (cos U * h) - cos phi * (sin U * h)) by ring. replace (f * sin phi * cos U * h) with (f * sin phi * (cos U * h)) by ring. rewrite A, B. ring. }
  assert (CP : 0 < cos (phi - U)).
  { rewrite cos_minus. assert (0 <= sin phi * sin U). { apply Rmult_le_reg_r with h; [lra|]. rewrite Rmult_0_l, Rmult_assoc, A. pose proof (Rle_0_sqr (sin phi)) as Q. unfold Rsqr in Q. nra. }
    pose proof (reduced_cos_pos f phi) as UP. fold U in UP. assert (0 < cos phi * cos U) by (apply Rmult_lt_0_compat; lra). lra. }
  assert (YR : 0 <= y <= PI) by (apply angle_range; apply L_ecef.unit_normal_unit).
  assert (Y2 : y < PI / 2). { apply Rnot_le_lt. intros X. assert (cos y <= 0) by (rewrite <- cos_PI2; apply cos_decr_1; lra). lra. }
  pose proof (L_ecefacc2.arc_sin y ltac:(rewrite Rabs_right; lra)) as AS. rewrite (Rabs_right y) in AS by lra.
  assert (SS : Rabs (sin y) <= f).
  { apply Rsqr_incr_0_var; [|lra]. rewrite <- Rsqr_abs, !Rsqr_pow2. assert (sin y ^ 2 = sin (phi - U) ^ 2) as -> by (rewrite !sin_pow2, CY; reflexivity). rewrite S0, Rmult_assoc, Rpow_mult_distr.
    assert (Rabs (sin phi * cos U) <= 1) as Q by (replace 1 with (1 * 1) by ring; apply Rabs_mul_le; [apply abs_sin|apply abs_cos]). apply Rabs_le_between in Q. assert ((sin phi * cos U) ^ 2 <= 1) by nra. pose proof (pow2_ge_0 f). nra. }
  lra.
Qed.
Lemma reduced_sep f phi1 lon1 phi2 lon2 : 0 <= f <= 1 / 100 -> 0 < cos phi1 -> 0 < cos phi2 ->
  sg (reduced_lat f phi1) (reduced_lat f phi2) (lon_gap lon1 lon2) <= unit_angle (unit_normal phi1 lon1) (unit_normal phi2 lon2) + 4 * f.
Proof.
  intros F P1 P2. unfold sg. rewrite v_sigma_angle. pose proof (reduced_near f phi1 lon1 F P1) as A. pose proof (reduced_near f phi2 lon2 F P2) as B.
  assert (SY : forall p q, unit_angle p q = unit_angle q p) by (intros [[x y] z] [[x' y'] z']; unfold unit_angle; f_equal; cbn [vdot]; ring). rewrite SY in A.
  set (p := unit_normal phi1 lon1) in *. set (q := unit_normal phi2 lon2) in *. set (p' := unit_normal (reduced_lat f phi1) lon1) in *. set (q' := unit_normal (reduced_lat f phi2) lon2) in *.
  assert (is_unit p /\ is_unit q /\ is_unit p' /\ is_unit q') as (I1 & I2 & I3 & I4) by (repeat split; apply L_ecef.unit_normal_unit).
  pose proof (angle_triangle p' p q' I3 I1 I4). pose proof (angle_triangle p q q' I1 I2 I4). lra.
Qed.
(** The two ways of measuring a longitude difference. *)
Lemma signed_dir lon1 lon2 lam : lon_gap lon1 lon2 <= lam <= PI -> exists e, (e = 1 \/ e = -1) /\
  cos (v_signed lon1 lon2 lam) = cos (e * lam) /\ sin (v_signed lon1 lon2 lam) = sin (e * lam) /\
  forall a b phi, surface_point a b phi (lon1 + e * lon_gap lon1 lon2) = surface_point a b phi lon2.
Proof.
  intros H. pose proof (lon_gap_range lon1 lon2) as LR. set (L := lon_gap lon1 lon2) in *. pose proof (cos_gap lon1 lon2) as CG. pose proof (sin_gap lon1 lon2) as SG. fold L in CG, SG.
  assert (SL : 0 <= sin lam) by (apply sin_ge_0; lra). set (sd := sin (lon2 - lon1)) in *. unfold v_signed. rewrite (Rabs_right lam) by lra. fold sd.
  assert (PT : forall e, (e = 1 \/ e = -1) -> e * sin L = sd -> forall a b phi, surface_point a b phi (lon1 + e * L) = surface_point a b phi lon2).
  { intros e He Es a b phi. assert (cos (e * L) = cos (lon2 - lon1)) as C by (rewrite <- CG; destruct He as [->| ->]; [now rewrite Rmult_1_l|]; replace (-1 * L) with (- L) by ring; apply cos_neg).
    assert (sin (e * L) = sin (lon2 - lon1)) as D. { fold sd. rewrite <- Es. destruct He as [->| ->]; [now rewrite !Rmult_1_l|]. replace (-1 * L) with (- L) by ring. rewrite sin_neg. ring. }
    assert (cos (lon1 + e * L) = cos lon2 /\ sin (lon1 + e * L) = sin lon2) as [X Y].
    { rewrite cos_plus, sin_plus, C, D. replace lon2 with (lon1 + (lon2 - lon1)) at 3 6 by ring. rewrite cos_plus, sin_plus. split; reflexivity. }
    unfold surface_point. now rewrite X, Y. }
  destruct (Rlt_dec sd 0) as [N|N].
  - exists (-1). split; [now right|]. rewrite (Rabs_left sd) in SG by exact N. assert (-1 * sin L = sd) as Q by lra. split; [|split; [|now apply PT; [right|]]].
    + destruct (Rlt_dec _ _); [f_equal; ring|]. replace (-1 * lam) with (- lam) by ring. symmetry. apply cos_neg.
    + destruct (Rlt_dec _ _) as [X|X]; [f_equal; ring|]. replace (-1 * lam) with (- lam) by ring. rewrite sin_neg. assert (sin lam = 0); [|lra].
      destruct SL as [SL|SL]; [|now symmetry]. exfalso. apply X. unfold sign. destruct (Rlt_dec sd 0); [|lra]. destruct (Rlt_dec (sin lam) 0); [lra|]. destruct (Rlt_dec 0 (sin lam)); lra.
  - exists 1. split; [now left|]. rewrite (Rabs_right sd) in SG by lra. rewrite Rmult_1_l. destruct (Rlt_dec _ _) as [X|_].
    + exfalso. unfold sign in X. destruct (Rlt_dec sd 0); [lra|]. destruct (Rlt_dec (sin lam) 0); [lra|]. destruct (Rlt_dec 0 sd), (Rlt_dec 0 (sin lam)); lra.
    + split; [reflexivity|]. split; [reflexivity|]. apply PT; [now left|lra].
Qed.
Lemma len_rel k c S s co m : 0 <= k <= 1 / 40 -> Rabs c <= 1 -> Rabs S <= 1 -> Rabs s <= 1 -> Rabs co <= 1 -> Rabs m <= 1 ->
  Rabs (vin_A (k * c) * (3 * S - vin_deltasigma (vin_B (k * c)) s co m) - 3 * S) <= 2 * k ^ 1.
Proof.
  intros. unfold vin_A, vin_deltasigma, vin_B. L_poly.tm_le [k; c; S; s; co; m] (1#40)%Q 2%nat 1%nat (2#1)%Q; try assumption.
Qed.
(** The length is at most three polar radii. *)
Lemma len_up a f U1 U2 L l : 0 < a -> 0 <= f <= 1 / 100 -> - PI/2 < U1 < PI/2 -> - PI/2 < U2 < PI/2 -> 0 <= L <= PI -> 0 < sg U1 U2 L -> sg U1 U2 L + 4 * f <= 29 / 10 ->
  tube f L l -> vdist_length a (a * (1 - f)) (v_state_of U1 U2 l) <= 3 * (a * (1 - f)).
Proof.
  intros Ha F V1 V2 L0 S0 S1 T. destruct (tube_sg f U1 U2 L V1 V2 L0 S0 S1 l T) as (SR & SP & LR). destruct (q_le U1 U2 l SP) as [Q0 Q1].
  set (b := a * (1 - f)). assert (Hb : 0 < b) by (unfold b; apply Rmult_lt_0_compat; lra). pose proof (ep2_range f F) as EP.
  destruct (alpha_cases f U1 U2 L V1 V2 L0 S0 S1 l T) as [[Q E]|(E1 & E3 & E4)].
  - unfold v_state_of. cbv zeta. rewrite E, vdist_length_equator. fold (sg U1 U2 l). nra.
  - pose proof (cos2sm_eq f U1 U2 L l T E3 ltac:(lra)) as M. cbv zeta in M. unfold v_state_of. cbv zeta. unfold vdist_length. set (al := v_alpha (v_sinAlpha U1 U2 l)) in *. set (m := v_cos2sigmam U1 U2 l al) in *. rewrite E3.
    set (c := 1 - xx U1 U2 l ^ 2) in *. replace (c * (a ^ 2 - b ^ 2) / b ^ 2) with (ep2 f * c) by (unfold ep2, b; field; lra). fold (sg U1 U2 l). set (S := sg U1 U2 l) in *.
    assert (Mb : Rabs m <= 1). { rewrite <- M in Q1. rewrite Rabs_mult, (Rabs_right c) in Q1 by lra. apply Rmult_le_reg_l with c; lra. }
    pose proof (pow2_ge_0 (xx U1 U2 l)) as X2. pose proof (len_rel (ep2 f) c (S / 3) (sin S) (cos S) m EP ltac:(rewrite Rabs_right; unfold c in *; lra) ltac:(rewrite Rabs_right; lra) (abs_sin S) (abs_cos S) Mb) as B. replace (3 * (S / 3)) with S in B by field. rewrite pow_1 in B.
    apply Rabs_le_between in B. rewrite Rmult_assoc, (Rmult_comm 3). apply Rmult_le_compat_l; lra.
Qed.
(** Auxiliary points that coincide. *)
Lemma sep_zero f phi1 lon1 phi2 lon2 : 0 <= f <= 1 / 100 -> - PI / 2 < phi1 < PI / 2 -> - PI / 2 < phi2 < PI / 2 ->
  sg (reduced_lat f phi1) (reduced_lat f phi2) (lon_gap lon1 lon2) = 0 -> phi1 = phi2 /\ lon_gap lon1 lon2 = 0 /\ forall a b phi, surface_point a b phi lon1 = surface_point a b phi lon2.
Proof.
  intros F R1 R2 Z. pose proof (lon_gap_range lon1 lon2) as LR. destruct (signed_dir lon1 lon2 (lon_gap lon1 lon2) ltac:(lra)) as (e & _ & _ & _ & PT). set (U1 := reduced_lat f phi1) in *. set (U2 := reduced_lat f phi2) in *. set (L := lon_gap lon1 lon2) in *.
  destruct (sg_cs U1 U2 L) as [C _]. rewrite Z, cos_0 in C. pose proof (reduced_cos_pos f phi1) as C1. pose proof (reduced_cos_pos f phi2) as C2. fold U1 in C1. fold U2 in C2. pose proof (COS_bound L) as CL.
  assert (D : cos (U1 - U2) = 1). { pose proof (COS_bound (U1 - U2)) as B. rewrite cos_minus in *. assert (0 < cos U1 * cos U2) by (apply Rmult_lt_0_compat; lra). nra. }
  assert (V1 : - PI/2 < U1 < PI/2) by apply reduced_range. assert (V2 : - PI/2 < U2 < PI/2) by apply reduced_range.
  assert (EU : U1 = U2). { assert (G : forall x, - PI < x < PI -> cos x = 1 -> x = 0). { intros x X Y. destruct (Rtotal_order x 0) as [N|[N|N]]; [|exact N|]; exfalso. - assert (cos (- x) < cos 0) by (apply cos_decreasing_1; lra). rewrite cos_neg, cos_0 in *. lra. - assert (cos x < cos 0) by (apply cos_decreasing_1; lra). rewrite cos_0 in *. lra. }
    pose proof (G (U1 - U2) ltac:(lra) D). lra. }
  assert (EL : L = 0). { destruct (Req_dec L 0) as [|N]; [assumption|]. exfalso. assert (cos L < cos 0) as X by (apply cos_decreasing_1; lra). rewrite cos_0 in X. pose proof (sc1 U2). rewrite EU in C. assert (0 < cos U2 * cos U2) by (rewrite EU in C1; apply Rmult_lt_0_compat; lra). nra. }
  split; [|split; [exact EL|]].
  - assert (TT : tan phi1 = tan phi2). { assert (X : tan U1 = tan U2) by now rewrite EU. unfold U1, U2, reduced_lat in X. rewrite !tan_atan in X. apply Rmult_eq_reg_l with (1 - f); lra. }
    apply tan_inj; [exact R1|exact R2|exact TT].
  - intros a b phi. rewrite <- PT, EL. now rewrite Rmult_0_r, Rplus_0_r.
Qed.
Lemma vdist3_refl p : vdist3 p p = 0.
Proof. destruct p as [[x y] z]. unfold vdist3, vnorm. cbn [vsub vdot]. replace (_ + _ + _) with 0 by ring. apply sqrt_0. Qed.
Lemma Forall2_nth {A B} (P : A -> B -> Prop) l l' i x : Forall2 P l l' -> nth_error l i = Some x -> exists y, nth_error l' i = Some y /\ P x y.
Proof. intros H. revert i. induction H as [|a b l l' H _ IH]; intros [|i] E; cbn in *; try discriminate; [injection E as <-; eauto|eauto]. Qed.
Lemma acos_le_28 x : - (1 / 2) <= x -> acos x <= 28 / 10.
Proof.
  intros H. destruct (Rle_dec x 1) as [X|X].
  - apply Rnot_lt_le. intros Y. pose proof (acos_bound x). assert (cos (acos x) < cos (28 / 10)) as Z by (apply cos_decreasing_1; pose proof pi_31; lra). rewrite cos_acos in Z by lra.
    assert (cos (28 / 10) <= - (1 / 2)); [|lra]. replace (- (1 / 2)) with (cos (2 * (PI / 3))) by (rewrite cos_2PI3; lra). pose proof pi_31. pose proof pi_315. apply cos_decr_1; lra.
  - unfold acos. destruct (Rle_dec x (-1)); [lra|]. destruct (Rle_dec 1 x); lra.
Qed.
Lemma nth_map_inv {A B} (g : A -> B) l i y : nth_error (map g l) i = Some y -> exists x, nth_error l i = Some x /\ g x = y.
Proof. rewrite nth_error_map. destruct (nth_error l i) as [x|]; cbn; intros E; [injection E as <-; eauto|discriminate]. Qed.
