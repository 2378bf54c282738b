(** The geodesic from a fixed point to a given one: existence, uniqueness and rate of
    change of its length. *)
From Coq Require Import Reals Ratan Ranalysis5 Lra Lia Psatz.
From Coquelicot Require Import Coquelicot.
From Verif Require Import PyMath Spec L_PyMath L_short1 L_short2.
From Verif Require L_vincenty2 L_series2 L_nvector L_vin3.
Open Scope R_scope.

Lemma pi_gt : 31 / 10 < PI.
Proof.
  destruct (L_series2.cos_taylor (155 / 100)) as (th & T & E). apply Rabs_le_between in T. pose proof PI2_3_2.
  assert (0 < cos (155 / 100)) by (rewrite E; simpl; lra). apply Rnot_le_lt. intros X. assert (cos (155 / 100) <= 0); [|lra]. apply cos_le_0; lra.
Qed.
Lemma pi_lt : PI < 33 / 10.
Proof.
  destruct (L_series2.cos_taylor (165 / 100)) as (th & T & E). apply Rabs_le_between in T. pose proof PI2_3_2.
  assert (cos (165 / 100) < 0) by (rewrite E; simpl; lra). apply Rnot_le_lt. intros X. assert (0 <= cos (165 / 100)); [|lra]. apply cos_ge_0; lra.
Qed.
Lemma sin_ge_half y : 0 <= y <= 17 / 10 -> / 2 * y <= sin y.
Proof.
  intros H. destruct (L_series2.sin_taylor y) as (th & T & E). rewrite E. rewrite Rmult_comm. apply Rmult_le_compat_l; [lra|]. apply Rabs_le_between in T.
  assert (Q : 0 <= y ^ 2 <= 289 / 100) by (split; [apply pow2_ge_0|nra]). replace (y ^ 4) with ((y ^ 2) ^ 2) by ring. replace (y ^ 6) with ((y ^ 2) ^ 3) by ring. set (q := y ^ 2) in *.
  assert (th * q ^ 3 / 5040 <= q ^ 2 / 120). { assert (0 <= q ^ 2) by apply pow2_ge_0. assert (0 <= q ^ 3) by (apply pow_le; lra). assert (q ^ 3 <= 3 * q ^ 2) by (replace (q ^ 3) with (q * q ^ 2) by ring; apply Rmult_le_compat_r; lra). assert (th * q ^ 3 <= 1 * q ^ 3) by (apply Rmult_le_compat_r; lra). lra. }
  lra.
Qed.
Lemma sin_ge_lin y : 0 <= y <= 16 / 10 -> 57 / 100 * y <= sin y.
Proof.
  intros H. destruct (L_series2.sin_taylor y) as (th & T & E). rewrite E. rewrite Rmult_comm. apply Rmult_le_compat_l; [lra|]. apply Rabs_le_between in T.
  assert (Q : 0 <= y ^ 2 <= 256 / 100) by (split; [apply pow2_ge_0|nra]). replace (y ^ 4) with ((y ^ 2) ^ 2) by ring. replace (y ^ 6) with ((y ^ 2) ^ 3) by ring. set (q := y ^ 2) in *.
  assert (th * q ^ 3 / 5040 <= q ^ 2 / 120). { assert (0 <= q ^ 2) by apply pow2_ge_0. assert (0 <= q ^ 3) by (apply pow_le; lra). assert (q ^ 3 <= 3 * q ^ 2) by (replace (q ^ 3) with (q * q ^ 2) by ring; apply Rmult_le_compat_r; lra). assert (th * q ^ 3 <= 1 * q ^ 3) by (apply Rmult_le_compat_r; lra). lra. }
  lra.
Qed.
Lemma sin_region s : 0 < s <= 2922 / 1000 -> 0 < sin s /\ s <= 30 * sin s.
Proof.
  intros H. pose proof pi_gt as P. pose proof pi_lt. split; [apply sin_gt_0; lra|].
  destruct (Rle_dec s (17 / 10)) as [L|L]. { pose proof (sin_ge_half s ltac:(lra)). lra. }
  rewrite <- sin_PI_x. set (y := PI - s). pose proof (sin_ge_lin y ltac:(unfold y in *; lra)). unfold y in *. lra.
Qed.
(** Angle from the fixed point. *)
Section Fix.
Variables (e2 x1 y1 z1 : R).
Hypothesis He : 0 <= e2 <= 2 / 100.
Hypothesis P1 : x1 ^ 2 + y1 ^ 2 + z1 ^ 2 = 1.
Notation cq := (cq x1 y1 z1). Notation sq := (sq x1 y1 z1). Notation pq := (pq x1 y1 z1). Notation dq := (dq x1 y1 z1).
Notation Sq := (Sq e2 x1 y1 z1). Notation Kq := (Kq e2 x1 y1 z1).
Definition rX (x y th : R) : R := x * cos th - y * sin th.
Definition rY (x y th : R) : R := x * sin th + y * cos th.
Lemma rot_onS x y z th : onS x y z -> onS (rX x y th) (rY x y th) z.
Proof. unfold onS, rX, rY. intros H. pose proof (sc1 th) as S. replace ((x * cos th - y * sin th) ^ 2 + (x * sin th + y * cos th) ^ 2) with ((x ^ 2 + y ^ 2) * (sin th * sin th + cos th * cos th)) by ring. rewrite S. lra. Qed.
Lemma unit_v x y z : onS x y z -> is_unit (x, y, z).
Proof. unfold onS, is_unit, vdot. cbn. intros H. lra. Qed.
Lemma sq_angle x y z : sq x y z = unit_angle (x1, y1, z1) (x, y, z).
Proof. reflexivity. Qed.
Lemma P1u : is_unit (x1, y1, z1). Proof. apply unit_v. exact P1. Qed.
Lemma rot_angle x y z th : onS x y z -> unit_angle (x, y, z) (rX x y th, rY x y th, z) <= Rabs th.
Proof.
  intros H. destruct (Rle_dec PI (Rabs th)) as [B|B]. { pose proof (L_nvector.angle_range _ _ (unit_v _ _ _ H) (unit_v _ _ _ (rot_onS x y z th H))). lra. }
  pose proof (L_nvector.angle_range _ _ (unit_v _ _ _ H) (unit_v _ _ _ (rot_onS x y z th H))) as R.
  apply Rnot_lt_le. intros X. assert (C : cos (unit_angle (x, y, z) (rX x y th, rY x y th, z)) < cos (Rabs th)) by (apply cos_decreasing_1; try lra; apply Rabs_pos).
  rewrite L_nvector.cos_angle in C by (apply unit_v; try exact H; now apply rot_onS). assert (E : cos (Rabs th) = cos th) by (unfold Rabs; destruct (Rcase_abs th); [apply cos_neg|reflexivity]). rewrite E in C. unfold vdot, rX, rY in C. cbn [fst snd] in C. unfold onS in H.
  assert (K : x * (x * cos th - y * sin th) + y * (x * sin th + y * cos th) + z * z = cos th + (1 - cos th) * z ^ 2 + cos th * (x ^ 2 + y ^ 2 + z ^ 2 - 1)) by ring. rewrite K, H in C. pose proof (COS_bound th). pose proof (pow2_ge_0 z). nra.
Qed.
Lemma rot_sq x y z th : onS x y z -> Rabs (sq (rX x y th) (rY x y th) z - sq x y z) <= Rabs th.
Proof.
  intros H. rewrite !sq_angle. pose proof (unit_v _ _ _ H) as U. pose proof (unit_v _ _ _ (rot_onS x y z th H)) as V. pose proof (rot_angle x y z th H) as A.
  pose proof (L_vin3.angle_triangle _ _ _ P1u U V). pose proof (L_vin3.angle_triangle _ _ _ P1u V U) as T. rewrite (L_nvector.angle_sym (rX x y th, rY x y th, z)) in T. apply Rabs_le. lra.
Qed.
(** arcs up to 2.92 *)
Definition mid (x y z : R) : Prop := onS x y z /\ 0 < sq x y z <= 2922 / 1000.
Lemma mid_facts x y z : mid x y z -> -1 < cq x y z < 1 /\ 0 < sin (sq x y z) /\ sq x y z <= 30 * sin (sq x y z) /\ pq x y z ^ 2 + dq x y z ^ 2 = 1 - z1 ^ 2 /\ cos (sq x y z) = cq x y z /\ zt z1 (dq x y z) (sq x y z) = z.
Proof.
  intros [H B]. pose proof (cq_abs x1 y1 z1 P1 x y z H) as C. destruct (sin_region _ B) as [S1 S2]. assert (CA : cos (sq x y z) = cq x y z) by (unfold L_short2.sq; apply cos_acos; lra).
  assert (C' : -1 < cq x y z < 1). { pose proof (sc1 (sq x y z)) as S. rewrite CA in S. split; apply Rnot_le_lt; intros X; nra. }
  destruct (pd_id x1 y1 z1 P1 x y z H C') as (E1 & E2 & E3 & E4). repeat split; try assumption; apply C'.
Qed.
Lemma K_le x y z : mid x y z -> Rabs (Kq x y z) <= 102 / 10000 * sq x y z.
Proof.
  intros H. pose proof H as [_ B]. destruct (mid_facts _ _ _ H) as (_ & _ & _ & E & _). unfold L_short2.Kq. pose proof (pow2_ge_0 (pq x y z)). pose proof (pow2_ge_0 z1). pose proof (pow2_ge_0 (dq x y z)).
  pose proof (Jf_le e2 He z1 (sq x y z) (dq x y z) ltac:(lra)) as J. assert (P : Rabs (pq x y z) <= 1) by (rewrite <- (pow2_abs (pq x y z)) in *; pose proof (Rabs_pos (pq x y z)); nra).
  rewrite Rabs_mult. pose proof (Rabs_pos (pq x y z)). set (j := Rabs (Jf e2 z1 (sq x y z) (dq x y z))) in *. assert (0 <= j) by apply Rabs_pos. assert (102 / 200 * e2 * sq x y z <= 102 / 10000 * sq x y z) by (apply Rmult_le_compat_r; lra). nra.
Qed.
(** rate of the correction when the point is turned about the axis *)
Lemma K_rate x y z th : mid (rX x y th) (rY x y th) z -> exists k, is_derive (fun th => Kq (rX x y th) (rY x y th) z) th k /\ Rabs k <= 3 / 4.
Proof.
  intros M. pose proof M as [HO HS]. set (X0 := rX x y th) in *. set (Y0 := rY x y th) in *. destruct (mid_facts _ _ _ M) as (C & S0 & SR & PD & CA & ZT).
  set (N := fun t : R => Rabs (t - th)). assert (N0 : forall t, 0 <= N t) by (intros; apply Rabs_pos).
  assert (L0 : lin N (fun t => t) th (fun t => t - th)). { apply (lin_exact N N0 (fun t => t) th). exists 1. split; [lra|]. apply near_all. intros t. unfold N. lra. }
  assert (HX : lin N (fun t => rX x y t) X0 (fun t => - Y0 * (t - th))). { apply (lin_comp1 N N0 (fun t => rX x y t) (- Y0) (fun t => t)); [|exact L0]. unfold Y0, rX, rY. auto_derive; [exact I|ring]. }
  assert (HY : lin N (fun t => rY x y t) Y0 (fun t => X0 * (t - th))). { apply (lin_comp1 N N0 (fun t => rY x y t) X0 (fun t => t)); [|exact L0]. unfold X0, rX, rY. auto_derive; [exact I|ring]. }
  assert (OS : forall t, onS (rX x y t) (rY x y t) z). { intros t. assert (K : x ^ 2 + y ^ 2 + z ^ 2 = 1). { unfold onS in HO. unfold X0, Y0, rX, rY in HO. pose proof (sc1 th) as S. replace ((x * cos th - y * sin th) ^ 2 + (x * sin th + y * cos th) ^ 2) with ((x ^ 2 + y ^ 2) * (sin th * sin th + cos th * cos th)) in HO by ring. rewrite S in HO. lra. } now apply rot_onS. }
  pose proof (lin_K N N0 e2 x1 y1 z1 He P1 (fun t => rX x y t) (fun t => rY x y t) (fun _ => z) X0 Y0 z _ _ _ HX HY (lin_const N N0 z) HO C) as L.
  set (s := sq X0 Y0 z) in *. set (d := dq X0 Y0 z) in *. set (p := pq X0 Y0 z) in *. set (c := cq X0 Y0 z) in *.
  assert (PE : p = (x1 * Y0 - y1 * X0) * / sin s) by reflexivity. set (dz := - sin s * z1 + c * d).
  set (k := p * (gg e2 z * p + Jd e2 z1 s d * (/ sin s * - (dz * p))) + Jf e2 z1 s d * (/ sin s * (x1 * X0 + y1 * Y0 - p * c * p))).
  exists k. split.
  - apply is_derive_Reals. intros eps Heps. destruct L as [_ Sm]. destruct (Sm (eps / 2) ltac:(lra)) as (del & Hp & Hd). assert (Hq : 0 < del / 2) by lra. exists (mkposreal _ Hq). intros h Hn Hh. cbn in Hh. specialize (Hd (th + h)). unfold N in Hd. replace (th + h - th) with h in Hd by ring. specialize (Hd ltac:(lra)).
    cbv beta in Hd. fold p s d in Hd. unfold ld, lp, Dz, ls, lc in Hd. fold s d p c in Hd. replace (th + h - th) with h in Hd by ring. fold X0 Y0.
    set (F := Kq (rX x y (th + h)) (rY x y (th + h)) z) in *. set (F0 := Kq X0 Y0 z) in *.
    match type of Hd with Rabs (F - F0 - ?q) <= _ => assert (Q : q = k * h) end.
    { unfold k. fold dz. assert (LL : - / sin s * (x1 * (- Y0 * h) + y1 * (X0 * h) + z1 * 0) = p * h) by (rewrite PE; ring). rewrite LL. ring. }
    rewrite Q in Hd. assert (Z : Rabs ((F - F0) / h - k) <= eps / 2); [|lra].
    replace ((F - F0) / h - k) with ((F - F0 - k * h) * / h) by (field; exact Hn). rewrite Rabs_mult, Rabs_inv. pose proof (Rabs_pos_lt h Hn). apply Rmult_le_reg_r with (Rabs h); [lra|]. rewrite Rmult_assoc, Rinv_l by lra. lra.
  - assert (PP : Rabs p <= 1) by (pose proof (pow2_ge_0 z1); pose proof (pow2_ge_0 d); rewrite <- (pow2_abs p) in PD; pose proof (Rabs_pos p); nra).
    assert (CC : Rabs c <= 1) by (apply Rabs_le; lra).
    assert (DD : Rabs dz <= 1). { assert (Q : dz ^ 2 + (c * z1 + sin s * d) ^ 2 = z1 ^ 2 + d ^ 2). { unfold dz. pose proof (sc1 s) as SC. rewrite CA in SC. replace ((- sin s * z1 + c * d) ^ 2 + (c * z1 + sin s * d) ^ 2) with ((sin s * sin s + c * c) * (z1 ^ 2 + d ^ 2)) by ring. rewrite SC. ring. }
      pose proof (pow2_ge_0 (c * z1 + sin s * d)). pose proof (pow2_ge_0 p). rewrite <- (pow2_abs dz) in Q. pose proof (Rabs_pos dz). nra. }
    assert (XX : Rabs (x1 * X0 + y1 * Y0) <= 1). { unfold onS in HO. apply Rabs_le. pose proof (pow2_ge_0 (x1 - X0)). pose proof (pow2_ge_0 (y1 - Y0)). pose proof (pow2_ge_0 (x1 + X0)). pose proof (pow2_ge_0 (y1 + Y0)). pose proof (pow2_ge_0 z1). pose proof (pow2_ge_0 z). nra. }
    assert (HD : z1 ^ 2 + d ^ 2 <= 1) by (pose proof (pow2_ge_0 p); lra). assert (Hs0 : 0 <= s) by lra.
    pose proof (Jf_le e2 He z1 s d Hs0) as BJ. pose proof (Jd_le e2 He z1 s d Hs0 HD) as BD. pose proof (gg_bound e2 He z) as BG.
    assert (IS : 0 < / sin s) by (apply Rinv_0_lt_compat; lra). assert (SI : s * / sin s <= 30) by (apply Rmult_le_reg_r with (sin s); [lra|]; rewrite Rmult_assoc, Rinv_l by lra; lra). assert (SI0 : 0 <= s * / sin s) by (apply Rmult_le_pos; lra).
    assert (es : e2 * (s * / sin s) <= 6 / 10) by nra. assert (es0 : 0 <= e2 * (s * / sin s)) by (apply Rmult_le_pos; lra).
    assert (T1 : Rabs (gg e2 z * p) <= 102 / 10000 * 1) by (apply L_vincenty2.Rabs_mul_le; [rewrite Rabs_right; lra|exact PP]).
    assert (T2 : Rabs (Jd e2 z1 s d * (/ sin s * - (dz * p))) <= 36 / 10000).
    { apply Rle_trans with (6 / 1000 * e2 * s * (/ sin s * (1 * 1))). { apply L_vincenty2.Rabs_mul_le; [exact BD|]. apply L_vincenty2.Rabs_mul_le; [rewrite Rabs_right; lra|]. rewrite Rabs_Ropp. now apply L_vincenty2.Rabs_mul_le. } replace (6 / 1000 * e2 * s * (/ sin s * (1 * 1))) with (6 / 1000 * (e2 * (s * / sin s))) by ring. lra. }
    assert (T3 : Rabs (Jf e2 z1 s d * (/ sin s * (x1 * X0 + y1 * Y0 - p * c * p))) <= 612 / 1000).
    { apply Rle_trans with (102 / 200 * e2 * s * (/ sin s * (1 + 1 * 1 * 1))). { apply L_vincenty2.Rabs_mul_le; [exact BJ|]. apply L_vincenty2.Rabs_mul_le; [rewrite Rabs_right; lra|]. unfold Rminus. eapply Rle_trans; [apply Rabs_triang|]. apply Rplus_le_compat; [exact XX|]. rewrite Rabs_Ropp. apply L_vincenty2.Rabs_mul_le; [now apply L_vincenty2.Rabs_mul_le|exact PP]. } replace (102 / 200 * e2 * s * (/ sin s * (1 + 1 * 1 * 1))) with (102 / 100 * (e2 * (s * / sin s))) by (field; lra). lra. }
    unfold k. eapply Rle_trans; [apply Rabs_triang|]. assert (T4 : Rabs (p * (gg e2 z * p + Jd e2 z1 s d * (/ sin s * - (dz * p)))) <= 1 * (102 / 10000 * 1 + 36 / 10000)) by (apply L_vincenty2.Rabs_mul_le; [exact PP|]; eapply Rle_trans; [apply Rabs_triang|]; lra). lra.
Qed.
(** ** The auxiliary longitude of a point of the surface *)
(** [reach x y z th]: the point of the auxiliary sphere that goes with (x, y, z) is
    (x, y, z) turned by [th]. *)
Definition reach (x y z th : R) : Prop := Rabs th <= sq x y z / 50 /\ th = Kq (rX x y th) (rY x y th) z.
Definition inside (x y z : R) : Prop := onS x y z /\ 0 < sq x y z < 285 / 100.
Lemma inside_mid x y z th : inside x y z -> Rabs th <= sq x y z / 40 -> mid (rX x y th) (rY x y th) z.
Proof. intros [H B] T. split; [now apply rot_onS|]. pose proof (rot_sq x y z th H) as R. apply Rabs_le_between in R. set (n := sq x y z) in *. fold n. set (m := sq (rX x y th) (rY x y th) z) in *. lra. Qed.
Lemma K_lip x y z t t' : inside x y z -> Rabs t <= sq x y z / 40 -> Rabs t' <= sq x y z / 40 -> Rabs (Kq (rX x y t') (rY x y t') z - Kq (rX x y t) (rY x y t) z) <= 3 / 4 * Rabs (t' - t).
Proof.
  intros H A B. set (F := fun th => Kq (rX x y th) (rY x y th) z).
  assert (D : forall u, Rmin t t' <= u <= Rmax t t' -> exists k, is_derive F u k /\ Rabs k <= 3 / 4).
  { intros u Hu. apply K_rate. apply inside_mid; [exact H|]. unfold Rmin, Rmax in Hu. destruct (Rle_dec t t'); apply Rabs_le; revert A B; unfold Rabs; destruct (Rcase_abs t), (Rcase_abs t'); intros; lra. }
  destruct (MVT_gen F t t' (Derive F)) as (c & Hc & E).
  - intros u Hu. destruct (D u ltac:(lra)) as (k & K & _). rewrite (is_derive_unique _ _ _ K). exact K.
  - intros u Hu. destruct (D u Hu) as (k & K & _). apply continuity_pt_filterlim. apply (ex_derive_continuous F). exists k. exact K.
  - destruct (D c Hc) as (k & K & B'). rewrite (is_derive_unique _ _ _ K) in E. change (Rabs (F t' - F t) <= 3 / 4 * Rabs (t' - t)). rewrite E, Rabs_mult. apply Rmult_le_compat_r; [apply Rabs_pos|exact B'].
Qed.
Lemma K_small x y z th : inside x y z -> Rabs th <= sq x y z / 40 -> Rabs (Kq (rX x y th) (rY x y th) z) < sq x y z / 50.
Proof.
  intros H T. pose proof (K_le _ _ _ (inside_mid x y z th H T)) as K. destruct H as [H B]. pose proof (rot_sq x y z th H) as R. assert (sq (rX x y th) (rY x y th) z <= sq x y z + sq x y z / 40) by (revert R; unfold Rabs at 1; destruct (Rcase_abs _); intros; lra). lra.
Qed.
Theorem reach_exists x y z : inside x y z -> exists th, reach x y z th.
Proof.
  intros H. pose proof H as [_ B]. set (r := sq x y z / 50). set (F := fun th => th - Kq (rX x y th) (rY x y th) z).
  assert (RR : forall t, Rabs t <= r -> Rabs t <= sq x y z / 40) by (intros t X; unfold r in X; lra).
  assert (A1 : Rabs r = r) by (apply Rabs_right; unfold r; lra).
  destruct (IVT_interv F (- r) r) as (t & Ht & E).
  - intros u Hu. assert (U : Rabs u <= sq x y z / 40) by (apply RR, Rabs_le; exact Hu). destruct (K_rate x y z u (inside_mid x y z u H U)) as (k & K & _).
    apply continuity_pt_filterlim. apply (ex_derive_continuous F). exists (1 - k). exact (is_derive_minus (fun t : R => t) (fun th => Kq (rX x y th) (rY x y th) z) u 1 k (is_derive_id u) K).
  - unfold r. lra.
  - unfold F. pose proof (K_small x y z (- r) H ltac:(rewrite Rabs_Ropp; apply RR; lra)) as K. fold r in K. apply Rabs_def2 in K. lra.
  - unfold F. pose proof (K_small x y z r H ltac:(apply RR; lra)) as K. fold r in K. apply Rabs_def2 in K. lra.
  - exists t. split; [apply Rabs_le; exact Ht|]. unfold F in E. lra.
Qed.
Theorem reach_unique x y z t t' : inside x y z -> reach x y z t -> reach x y z t' -> t = t'.
Proof.
  intros H [A E] [A' E']. pose proof H as [_ B]. pose proof (K_lip x y z t t' H ltac:(lra) ltac:(lra)) as L. rewrite <- E, <- E' in L. destruct (Req_dec t t') as [|N]; [assumption|]. pose proof (Rabs_pos_lt (t' - t) ltac:(lra)). lra.
Qed.
End Fix.
