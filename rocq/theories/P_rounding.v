(** Property C92: what rounding in binary64 does to the local-frame conversions. *)
From Coq Require Import Reals ZArith Lra Lia Psatz.
From Flocq Require Import Core.
From Verif Require Import PyMath L_PyMath M_ellipsoid M_ecef M_frames M_enu M_aer M_ned Spec L_ell M_float M_floatenu Spec_float P_float L_float.
From Verif Require L_frames L_aer L_ecefacc2 L_vin3.
Open Scope R_scope.

Lemma p10 n : / 10 ^ n > 0. Proof. apply Rinv_0_lt_compat, pow_lt. lra. Qed.
Lemma sin_abs_le t : Rabs (sin t) <= Rabs t.
Proof.
  assert (P : forall t, 0 <= t -> Rabs (sin t) <= t).
  { intros x Hx. destruct (Rle_lt_dec x 1) as [H|H].
    - destruct Hx as [Hx|<-]; [|rewrite sin_0, Rabs_R0; lra]. pose proof (sin_lt_x x Hx). pose proof PI2_1. pose proof (sin_gt_0 x Hx ltac:(lra)). rewrite Rabs_pos_eq; lra.
    - pose proof (SIN_bound x). apply Rabs_le. lra. }
  destruct (Rle_lt_dec 0 t) as [H|H]; [rewrite (Rabs_pos_eq t H); now apply P|].
  replace t with (- - t) at 1 by ring. rewrite sin_neg, Rabs_Ropp, (Rabs_left t H). apply P. lra.
Qed.
Lemma sin_lip a b : Rabs (sin a - sin b) <= Rabs (a - b).
Proof.
  rewrite form4, !Rabs_mult. rewrite (Rabs_pos_eq 2) by lra. pose proof (sin_abs_le ((a - b) / 2)) as S. unfold Rdiv in S at 2. rewrite Rabs_mult, (Rabs_pos_eq (/ 2)) in S by lra.
  assert (C : Rabs (cos ((a + b) / 2)) <= 1) by (apply Rabs_le, COS_bound). pose proof (Rabs_pos (sin ((a - b) / 2))). pose proof (Rabs_pos (cos ((a + b) / 2))). nra.
Qed.
Lemma cos_lip a b : Rabs (cos a - cos b) <= Rabs (a - b).
Proof. rewrite !cos_sin. apply Rle_trans with (1 := sin_lip _ _). right. f_equal. ring. Qed.

Section Lib.
Variables (m : libm) (M : libm_ok m).
Lemma e300 : / 10 ^ 300 <= uu / 100.
Proof.
  replace (10 ^ 300) with (10 ^ 20 * 10 ^ 280) by (rewrite <- pow_add; reflexivity). rewrite Rinv_mult by (apply pow_nonzero; lra).
  assert (H : 1 <= 10 ^ 280) by (apply pow_R1_Rle; lra). assert (H2 : / 10 ^ 280 <= / 1) by (apply Rinv_le_contravar; lra). pose proof (p10 20). pose proof (p10 280).
  assert (/ 10 ^ 20 <= uu / 100) by (unfold uu; lra). rewrite Rinv_1 in H2. nra.
Qed.
Lemma rad_err deg x B : double x -> Rabs x <= B * full deg -> 0 <= B <= 1 ->
  Rabs (fl_rad m deg x - rad_in deg x) <= (19 * B + / 100) * uu /\ double (fl_rad m deg x) /\ Rabs (fl_rad m deg x) <= 7.
Proof.
  intros D H HB. pose proof PI_RGT_0. pose proof PI_4. assert (P3 : PI < 3.15) by (pose proof L_vin3.pi_315; lra). pose proof uu_pos. pose proof uu_small.
  destruct M as (_ & _ & _ & _ & R1 & _ & _ & _ & _ & R2 & _). destruct deg; unfold full in H; cbn [fl_rad rad_in].
  - assert (X : Rabs (radians x) <= 2 * PI * B). { unfold radians. replace (x * PI / 180) with (x * (PI / 180)) by field. rewrite Rabs_mult, (Rabs_pos_eq (PI / 180)) by lra. nra. }
    assert (E : Rabs (l_radians m x - radians x) <= (19 * B + / 100) * uu).
    { apply Rle_trans with (1 := R1 x D ltac:(nra)). pose proof e300. assert (3 * uu * Rabs (radians x) <= 3 * uu * (2 * PI * B)) by (apply Rmult_le_compat_l; lra). assert (PI * B <= 3.15 * B) by nra. assert (uu * (PI * B) <= uu * (3.15 * B)) by (apply Rmult_le_compat_l; lra). assert (0 <= uu * B) by nra. lra. }
    split; [exact E|split; [apply R2|]]. replace (l_radians m x) with ((l_radians m x - radians x) + radians x) by ring. apply Rle_trans with (1 := Rabs_triang _ _).
    assert (2 * PI * B <= 6.3) by nra. nra.
  - rewrite Rminus_diag_eq, Rabs_R0 by reflexivity. split; [nra|split; [exact D|]]. nra.
Qed.
Lemma trig_err deg x B k : double x -> Rabs x <= B * full deg -> 0 <= B <= 1 -> 4 + 19 * B + / 100 <= k <= 10000 ->
  ap k 1 (l_sin m (fl_rad m deg x)) (sin (rad_in deg x)) /\ ap k 1 (l_cos m (fl_rad m deg x)) (cos (rad_in deg x)).
Proof.
  intros D H HB Hk. destruct (rad_err deg x B D H HB) as (E & D2 & H7). destruct M as (S & C & _). pose proof uu_pos.
  split; (split; [lra|split; [apply Rabs_le; first [apply SIN_bound|apply COS_bound]|]]).
  - replace (l_sin m (fl_rad m deg x) - sin (rad_in deg x)) with ((l_sin m (fl_rad m deg x) - sin (fl_rad m deg x)) + (sin (fl_rad m deg x) - sin (rad_in deg x))) by ring.
    apply Rle_trans with (1 := Rabs_triang _ _). pose proof (S _ D2 H7). pose proof (sin_lip (fl_rad m deg x) (rad_in deg x)). nra.
  - replace (l_cos m (fl_rad m deg x) - cos (rad_in deg x)) with ((l_cos m (fl_rad m deg x) - cos (fl_rad m deg x)) + (cos (fl_rad m deg x) - cos (rad_in deg x))) by ring.
    apply Rle_trans with (1 := Rabs_triang _ _). pose proof (C _ D2 H7). pose proof (cos_lip (fl_rad m deg x) (rad_in deg x)). nra.
Qed.
Lemma lat_err deg x : double x -> Rabs x <= quarter deg ->
  ap 9 1 (l_sin m (fl_rad m deg x)) (sin (rad_in deg x)) /\ ap 9 1 (l_cos m (fl_rad m deg x)) (cos (rad_in deg x)).
Proof. intros D H. apply trig_err with (B := / 4); [exact D| |lra|lra]. destruct deg; unfold full, quarter in *; lra. Qed.
Lemma lon_err deg x : double x -> Rabs x <= full deg ->
  ap 23.1 1 (l_sin m (fl_rad m deg x)) (sin (rad_in deg x)) /\ ap 23.1 1 (l_cos m (fl_rad m deg x)) (cos (rad_in deg x)).
Proof. intros D H. apply trig_err with (B := 1); [exact D| |lra|lra]. lra. Qed.

(** *** The rotation and its inverse *)
Lemma uvw2enu_ap k B uf u vf v wf w lat lon deg : double lat -> double lon -> Rabs lat <= quarter deg -> Rabs lon <= full deg ->
  ap k B uf u -> ap k B vf v -> ap k B wf w -> tny <= B -> k <= 1000 ->
  let '(ef, nf, pf) := fl_uvw2enu m uf vf wf lat lon deg in let '(e, n, p) := uvw2enu u v w lat lon deg in
  ap (k + 37) (3 * B) ef e /\ ap (k + 37) (3 * B) nf n /\ ap (k + 37) (3 * B) pf p.
Proof.
  intros D1 D2 H1 H2 U V W T Hk. destruct (lat_err deg lat D1 H1) as [S1 C1]. destruct (lon_err deg lon D2 H2) as [S2 C2]. pose proof tny_pos. assert (K := proj1 U).
  unfold fl_uvw2enu, uvw2enu. cbv zeta.
  assert (X : forall cf c sf s, ap 23.1 1 cf c -> ap 23.1 1 sf s -> ap (k + 25.2) (2 * B) (fl_add (fl_mul cf uf) (fl_mul sf vf)) (c * u + s * v)).
  { intros cf c sf s Hc Hs. eapply ap_weaken; [eapply (ap_add (23.1 + k + 1 + / 100)); [apply (ap_mul 23.1 k 1 B); [exact Hc|exact U|lra|lra]|apply (ap_mul 23.1 k 1 B); [exact Hs|exact V|lra|lra]|lra|lra|lra|lra]|lra|lra]. }
  pose proof (X _ _ _ _ C2 S2) as TT. set (tf := fl_add _ _) in *. set (t := cos (rad_in deg lon) * u + _) in *.
  assert (Y : forall cf c sf s, ap 9 1 cf c -> ap 9 1 sf s -> ap (k + 37) (3 * B) (fl_add (fl_mul cf tf) (fl_mul sf wf)) (c * t + s * w)).
  { intros cf c sf s Hc Hs. eapply ap_weaken; [eapply (ap_add (9 + (k + 25.2) + 1 + / 100)); [apply (ap_mul 9 (k + 25.2) 1 (2 * B)); [exact Hc|exact TT|lra|lra]|apply (ap_mul 9 k 1 B); [exact Hs|exact W|lra|lra]|lra|lra|lra|lra]|lra|lra]. }
  split; [|split].
  - eapply ap_weaken; [exact (X _ _ _ _ (ap_opp _ _ _ _ S2) C2)|lra|lra].
  - exact (Y _ _ _ _ (ap_opp _ _ _ _ S1) C1).
  - exact (Y _ _ _ _ C1 S1).
Qed.
Lemma enu2uvw_ap k B ef e nf n pf p lat lon deg : double lat -> double lon -> Rabs lat <= quarter deg -> Rabs lon <= full deg ->
  ap k B ef e -> ap k B nf n -> ap k B pf p -> tny <= B -> k <= 1000 ->
  let '(uf, vf, wf) := fl_enu2uvw m ef nf pf lat lon deg in let '(u, v, w) := enu2uvw e n p lat lon deg in
  ap (k + 37) (3 * B) uf u /\ ap (k + 37) (3 * B) vf v /\ ap (k + 37) (3 * B) wf w.
Proof.
  intros D1 D2 H1 H2 E N P T Hk. destruct (lat_err deg lat D1 H1) as [S1 C1]. destruct (lon_err deg lon D2 H2) as [S2 C2]. pose proof tny_pos. assert (K := proj1 E).
  unfold fl_enu2uvw, enu2uvw. cbv zeta.
  assert (X : forall cf c sf s, ap 9 1 cf c -> ap 9 1 sf s -> ap (k + 11.1) (2 * B) (fl_add (fl_mul cf pf) (fl_mul sf nf)) (c * p + s * n) /\ ap (k + 11.1) (2 * B) (fl_sub (fl_mul cf pf) (fl_mul sf nf)) (c * p - s * n)).
  { intros cf c sf s Hc Hs. split; (eapply ap_weaken; [first [eapply (ap_sub (9 + k + 1 + / 100))|eapply (ap_add (9 + k + 1 + / 100))]; [apply (ap_mul 9 k 1 B); [exact Hc|exact P|lra|lra]|apply (ap_mul 9 k 1 B); [exact Hs|exact N|lra|lra]|lra|lra|lra|lra]|lra|lra]). }
  pose proof (proj2 (X _ _ _ _ C1 S1)) as TT. set (tf := fl_sub (fl_mul (l_cos m (fl_rad m deg lat)) pf) _) in *. set (t := cos (rad_in deg lat) * p - _) in *.
  assert (Y : forall cf c sf s, ap 23.1 1 cf c -> ap 23.1 1 sf s -> ap (k + 37) (3 * B) (fl_add (fl_mul cf tf) (fl_mul sf ef)) (c * t + s * e) /\ ap (k + 37) (3 * B) (fl_sub (fl_mul cf tf) (fl_mul sf ef)) (c * t - s * e)).
  { intros cf c sf s Hc Hs. split; (eapply ap_weaken; [first [eapply (ap_sub (23.1 + (k + 11.1) + 1 + / 100))|eapply (ap_add (23.1 + (k + 11.1) + 1 + / 100))]; [apply (ap_mul 23.1 (k + 11.1) 1 (2 * B)); [exact Hc|exact TT|lra|lra]|apply (ap_mul 23.1 k 1 B); [exact Hs|exact E|lra|lra]|lra|lra|lra|lra]|lra|lra]). }
  split; [|split].
  - exact (proj2 (Y _ _ _ _ C2 S2)).
  - exact (proj1 (Y _ _ _ _ S2 C2)).
  - eapply ap_weaken; [exact (proj1 (X _ _ _ _ S1 C1))|lra|lra].
Qed.

(** *** Geodetic to ECEF *)
Lemma nonneg_ap k B c : ap k B c c -> 0 <= B. Proof. intros (_ & H & _). pose proof (Rabs_pos c). lra. Qed.
Lemma hyp_bounds a b c s : 9 / 10 * a <= b <= a -> 0 < a -> c ^ 2 + s ^ 2 = 1 -> 9 / 10 * a <= hypot (a * c) (b * s) <= a.
Proof.
  intros Hb Ha U. unfold hypot. assert (S : (9 / 10 * a) ^ 2 <= (a * c) ^ 2 + (b * s) ^ 2 <= a ^ 2).
  { replace ((a * c) ^ 2 + (b * s) ^ 2) with (a ^ 2 * (1 - s ^ 2) + b ^ 2 * s ^ 2) by (replace (1 - s ^ 2) with (c ^ 2) by lra; ring).
    assert (Q : 0 <= s ^ 2 <= 1) by (pose proof (pow2_ge_0 c); pose proof (pow2_ge_0 s); lra). assert (B2 : (9 / 10 * a) ^ 2 <= b ^ 2 <= a ^ 2) by nra. set (t := s ^ 2) in *. set (bb := b ^ 2) in *.
    assert ((9 / 10 * a) ^ 2 <= a ^ 2) by nra. nra. }
  split.
  - rewrite <- (sqrt_pow2 (9 / 10 * a)) by lra. apply sqrt_le_1_alt, S.
  - apply Rle_trans with (sqrt (a ^ 2)); [apply sqrt_le_1_alt, S|right; apply sqrt_pow2; lra].
Qed.
Lemma rnd_rl x : tny <= Rabs x -> rl 1 (rnd x) x.
Proof. intros H. split; [lra|]. rewrite Rmult_1_l. apply rnd_err; lra. Qed.
Lemma p_le n : 1 <= 10 ^ n. Proof. apply pow_R1_Rle. lra. Qed.
Lemma geo_N a b lat deg : 1 <= a <= 10 ^ 30 -> 9 / 10 * a <= b <= a -> double lat -> Rabs lat <= quarter deg ->
  let phi := rad_in deg lat in let pf := fl_rad m deg lat in
  rl 27.4 (fl_div (l_sq m (rnd a)) (l_hypot m (fl_mul (rnd a) (l_cos m pf)) (fl_mul (rnd b) (l_sin m pf)))) (a ^ 2 / hypot (a * cos phi) (b * sin phi)) /\
  0 < a ^ 2 / hypot (a * cos phi) (b * sin phi) <= 10 / 9 * a.
Proof.
  intros Ha Hb D H. cbv zeta. destruct (lat_err deg lat D H) as [S C]. set (phi := rad_in deg lat) in *. set (sf := l_sin m _) in *. set (cf := l_cos m _) in *.
  pose proof tny_le_1. pose proof tny_pos. pose proof uu_pos as U0. pose proof uu_small as U1.
  destruct (hyp_bounds a b (cos phi) (sin phi) Hb ltac:(lra)) as [L1 L2]; [pose proof (sin2_cos2 phi) as Q; unfold Rsqr in Q; lra|].
  assert (A1 : ap 1 a (rnd a) a) by (apply rl_ap; [apply rnd_rl|]; rewrite Rabs_pos_eq by lra; lra).
  assert (B1 : ap 1 a (rnd b) b) by (apply rl_ap; [apply rnd_rl|]; rewrite Rabs_pos_eq by lra; lra).
  assert (P : ap 11.1 a (fl_mul (rnd a) cf) (a * cos phi)). { replace a with (a * 1) at 1 by ring. eapply ap_weaken; [apply (ap_mul 1 9 a 1); [exact A1|exact C|lra|lra]|lra|lra]. }
  assert (Q : ap 11.1 a (fl_mul (rnd b) sf) (b * sin phi)). { replace a with (a * 1) at 1 by ring. eapply ap_weaken; [apply (ap_mul 1 9 a 1); [exact B1|exact S|lra|lra]|lra|lra]. }
  set (p := fl_mul (rnd a) cf) in *. set (q := fl_mul (rnd b) sf) in *. set (h := hypot (a * cos phi) (b * sin phi)) in *.
  assert (HL : Rabs (hypot p q - h) <= 15.7 * uu * a).
  { apply Rle_trans with (1 := L_ecefacc2.hypot_lip _ _ _ _). destruct P as (_ & _ & P). destruct Q as (_ & _ & Q). unfold hypot.
    rewrite <- (sqrt_pow2 (15.7 * uu * a)) by nra. apply sqrt_le_1_alt. rewrite <- (pow2_abs (p - _)), <- (pow2_abs (q - _)).
    assert (P2 : Rabs (p - a * cos phi) ^ 2 <= (11.1 * uu * a) ^ 2) by (apply pow_incr; split; [apply Rabs_pos|lra]).
    assert (Q2 : Rabs (q - b * sin phi) ^ 2 <= (11.1 * uu * a) ^ 2) by (apply pow_incr; split; [apply Rabs_pos|lra]).
    assert (0 <= (uu * a) ^ 2) by apply pow2_ge_0. nra. }
  assert (U2 : uu * a <= a / 1000) by nra.
  assert (HB : 0.8 * a <= hypot p q <= 1.1 * a) by (apply Rabs_le_inv in HL; lra).
  assert (HF : ap 19.9 a (l_hypot m p q) h).
  { split; [lra|split; [rewrite Rabs_pos_eq; lra|]]. replace (l_hypot m p q - h) with ((l_hypot m p q - hypot p q) + (hypot p q - h)) by ring. apply Rle_trans with (1 := Rabs_triang _ _).
    assert (E : Rabs (l_hypot m p q - hypot p q) <= 4 * uu * hypot p q).
    { apply M; [apply rnd_double|apply rnd_double|]. assert (X : 10 ^ 31 <= 10 ^ 200) by (apply Rle_pow; [lra|lia]). replace (10 ^ 31) with (10 * 10 ^ 30) in X by (rewrite <- tech_pow_Rmult; ring).
      assert (Y : / 10 ^ 200 <= / (10 * 10 ^ 30)) by (apply Rinv_le_contravar; [pose proof (p_le 30); lra|exact X]). assert (Z : / (10 * 10 ^ 30) <= / 10) by (apply Rinv_le_contravar; [lra|pose proof (p_le 30); lra]). pose proof (p_le 30). lra. }
    apply Rabs_le_inv in HL. assert (hypot p q <= (1 + 15.7 * uu) * a) by lra. assert (4 * uu * hypot p q <= 4 * uu * ((1 + 15.7 * uu) * a)) by (apply Rmult_le_compat_l; lra).
    assert (4 * uu * (15.7 * uu * a) <= 0.1 * uu * a) by (assert (0 <= uu * a) by nra; nra). apply Rle_trans with (4 * uu * ((1 + 15.7 * uu) * a) + 15.7 * uu * a); [apply Rplus_le_compat; [lra|apply Rabs_le; lra]|lra]. }
  assert (HR : rl 22.2 (l_hypot m p q) h). { eapply rl_weaken; [apply (ap_rl 19.9 a (9 / 10)); [exact HF|lra|rewrite Rabs_pos_eq by lra; lra|lra]|lra]. }
  assert (AF : Rabs (rnd a - a) <= uu * a). { destruct A1 as (_ & _ & A1). lra. }
  assert (SQ : rl 4.1 (l_sq m (rnd a)) (a ^ 2)).
  { apply Rabs_le_inv in AF. assert (E : Rabs (l_sq m (rnd a) - rnd a ^ 2) <= 2 * uu * rnd a ^ 2).
    { apply M; [apply rnd_double|]. rewrite Rabs_pos_eq by lra. assert (X : 10 ^ 31 <= 10 ^ 100) by (apply Rle_pow; [lra|lia]). replace (10 ^ 31) with (10 * 10 ^ 30) in X by (rewrite <- tech_pow_Rmult; ring).
      assert (Y : / 10 ^ 100 <= / (10 * 10 ^ 30)) by (apply Rinv_le_contravar; [pose proof (p_le 30); lra|exact X]). assert (Z : / (10 * 10 ^ 30) <= / 10) by (apply Rinv_le_contravar; [lra|pose proof (p_le 30); lra]). pose proof (p_le 30). lra. }
    split; [lra|]. rewrite (Rabs_pos_eq (a ^ 2)) by nra. replace (l_sq m (rnd a) - a ^ 2) with ((l_sq m (rnd a) - rnd a ^ 2) + (rnd a - a) * (rnd a + a)) by ring. apply Rle_trans with (1 := Rabs_triang _ _). rewrite Rabs_mult.
    assert (X : Rabs (rnd a - a) * Rabs (rnd a + a) <= (uu * a) * (a * (2 + uu))) by (apply Rmult_le_compat; try apply Rabs_pos; [apply Rabs_le; lra|rewrite Rabs_pos_eq; lra]).
    assert (Y : rnd a ^ 2 <= (a * (1 + uu)) ^ 2) by (apply pow_incr; lra). assert (W : 2 * uu * rnd a ^ 2 <= 2 * uu * (a * (1 + uu)) ^ 2) by (apply Rmult_le_compat_l; lra).
    assert (Z : uu * a ^ 2 * (4 * uu + 2 * uu * uu + uu) <= uu * a ^ 2 * 0.1) by (apply Rmult_le_compat_l; [pose proof (pow2_ge_0 a); nra|nra]).
    replace (2 * uu * (a * (1 + uu)) ^ 2) with (2 * uu * a ^ 2 + uu * a ^ 2 * (4 * uu + 2 * uu * uu)) in W by ring. replace ((uu * a) * (a * (2 + uu))) with (2 * uu * a ^ 2 + uu * a ^ 2 * uu) in X by ring. lra. }
  assert (N1 : a <= a ^ 2 / h). { apply Rmult_le_reg_r with h; [lra|]. replace (a ^ 2 / h * h) with (a ^ 2) by (field; lra). clear - L1 L2 Ha. nra. }
  assert (N2 : a ^ 2 / h <= 10 / 9 * a). { apply Rmult_le_reg_r with h; [lra|]. replace (a ^ 2 / h * h) with (a ^ 2) by (field; lra). clear - L1 L2 Ha. assert (a * (9 / 10 * a) <= a * h) by (apply Rmult_le_compat_l; lra). lra. }
  split; [|lra]. eapply rl_weaken; [apply (rl_div 4.1 22.2); [exact SQ|exact HR|lra|rewrite Rabs_pos_eq; lra|lra]|lra].
Qed.
Lemma geo_ap lat lon h ell deg : axes_ok ell -> site_ok lat lon h deg ->
  let '(xf, yf, zf) := fl_geodetic2ecef m lat lon h ell deg in let '(x, y, z) := geodetic2ecef lat lon h ell deg in
  ap 64 (reach ell h) xf x /\ ap 64 (reach ell h) yf y /\ ap 64 (reach ell h) zf z.
Proof.
  intros (Ha & Hb) (D1 & D2 & D3 & H1 & H2). unfold fl_geodetic2ecef, geodetic2ecef. cbv zeta. rewrite !resolve_a, !resolve_b.
  destruct (lat_err deg lat D1 H1) as [S1 C1]. destruct (lon_err deg lon D2 H2) as [S2 C2]. destruct (geo_N _ _ lat deg Ha Hb D1 H1) as [N Nb]. cbv zeta in N, Nb.
  unfold reach. pose proof (Rabs_pos h). set (a := ell_a ell) in *. set (b := ell_b ell) in *. clearbody a b.
  set (sf := l_sin m (fl_rad m deg lat)) in *. set (cf := l_cos m (fl_rad m deg lat)) in *. set (nf := fl_div _ _) in *. set (n := a ^ 2 / _) in *. clearbody nf n.
  set (B := 10 / 9 * a + Rabs h). pose proof tny_le_1 as T1. pose proof tny_pos as T0. assert (HB : tny <= B) by (unfold B; lra).
  assert (NA : ap 27.4 (10 / 9 * a) nf n) by (apply rl_ap; [exact N|rewrite Rabs_pos_eq; lra]).
  assert (X1 : ap 28.5 B (fl_add nf h) (n + h)). { eapply ap_weaken; [eapply (ap_add 27.4); [exact NA|apply ap_exact; apply Rle_refl|lra|lra|exact HB|lra]|lra|unfold B; lra]. }
  assert (X2 : ap 38.6 (B * 1) (fl_mul (fl_add nf h) cf) ((n + h) * cos (rad_in deg lat))). { eapply ap_weaken; [apply (ap_mul 28.5 9 B 1); [exact X1|exact C1|lra|lra]|lra|lra]. }
  assert (X3 : forall tf t, ap 23.1 1 tf t -> ap 64 B (fl_mul (fl_mul (fl_add nf h) cf) tf) ((n + h) * cos (rad_in deg lat) * t)).
  { intros tf t Ht. eapply ap_weaken; [apply (ap_mul 38.6 23.1 (B * 1) 1); [exact X2|exact Ht|lra|lra]|lra|lra]. }
  split; [apply X3; exact C2|split; [apply X3; exact S2|]].
  assert (A1 : rl 1 (rnd a) a) by (apply rnd_rl; rewrite Rabs_pos_eq by lra; lra). assert (B1 : rl 1 (rnd b) b) by (apply rnd_rl; rewrite Rabs_pos_eq by lra; lra).
  assert (Q0 : 9 / 10 <= b / a <= 1). { split; apply Rmult_le_reg_r with a; try lra; replace (b / a * a) with b by (field; lra); lra. }
  assert (Q1 : rl 3.1 (fl_div (rnd b) (rnd a)) (b / a)). { eapply rl_weaken; [apply (rl_div 1 1); [exact B1|exact A1|lra|rewrite Rabs_pos_eq; lra|lra]|lra]. }
  set (q := b / a) in *. set (qf := fl_div (rnd b) (rnd a)) in *. assert (QD : double qf) by apply rnd_double. clearbody q qf. pose proof uu_pos as U0. pose proof uu_small as U1.
  assert (Q2 : ap 8.5 1 (l_sq m qf) (q ^ 2)).
  { destruct Q1 as (_ & Q1). rewrite (Rabs_pos_eq q) in Q1 by lra. assert (Q1' : Rabs (qf - q) <= 3.1 * uu) by nra. clear Q1. assert (V : 0.8 <= qf <= 1 + 3.1 * uu) by (apply Rabs_le_inv in Q1'; lra).
    assert (E : Rabs (l_sq m qf - qf ^ 2) <= 2 * uu * qf ^ 2).
    { apply M; [exact QD|]. rewrite Rabs_pos_eq by lra. pose proof (p_le 100) as P1. assert (P2 : 10 ^ 1 <= 10 ^ 100) by (apply Rle_pow; [lra|lia]). assert (P3 : / 10 ^ 100 <= / 10 ^ 1) by (apply Rinv_le_contravar; [apply pow_lt; lra|exact P2]). rewrite pow_1 in P2, P3. lra. }
    split; [lra|split; [rewrite Rabs_pos_eq by nra; clear - Q0; nra|]]. replace (l_sq m qf - q ^ 2) with ((l_sq m qf - qf ^ 2) + (qf - q) * (qf + q)) by ring. apply Rle_trans with (1 := Rabs_triang _ _). rewrite Rabs_mult.
    assert (Y : Rabs (qf - q) * Rabs (qf + q) <= 3.1 * uu * 2.01) by (apply Rmult_le_compat; try apply Rabs_pos; [exact Q1'|rewrite Rabs_pos_eq; lra]).
    assert (W : 2 * uu * qf ^ 2 <= 2 * uu * 1.1) by (apply Rmult_le_compat_l; [lra|]; clear - V U1; nra). lra. }
  assert (Z1 : ap 37 (10 / 9 * a) (fl_mul nf (l_sq m qf)) (n * q ^ 2)). { replace (10 / 9 * a) with (10 / 9 * a * 1) by ring. eapply ap_weaken; [apply (ap_mul 27.4 8.5 (10 / 9 * a) 1); [exact NA|exact Q2|lra|lra]|lra|lra]. }
  assert (Z2 : ap 38.1 B (fl_add (fl_mul nf (l_sq m qf)) h) (n * q ^ 2 + h)). { eapply ap_weaken; [eapply (ap_add 37); [exact Z1|apply ap_exact; apply Rle_refl|lra|lra|exact HB|lra]|lra|unfold B; lra]. }
  eapply ap_weaken; [apply (ap_mul 38.1 9 B 1); [exact Z2|exact S1|lra|lra]|lra|lra].
Qed.
End Lib.

Lemma ap_lt k B xf x K : ap k B xf x -> tny <= B -> k < K -> Rabs (xf - x) < K * uu * B.
Proof. intros (_ & _ & E) T HK. pose proof tny_pos. pose proof uu_pos. apply Rle_lt_trans with (1 := E). assert (0 < uu * B) by nra. nra. Qed.
Lemma reach_tny ell h : axes_ok ell -> tny <= reach ell h.
Proof. intros [H _]. unfold reach. pose proof (Rabs_pos h). pose proof tny_le_1. lra. Qed.

Lemma tny_300 B : / 10 ^ 300 <= B -> tny <= B.
Proof.
  intros H. apply Rle_trans with (2 := H). assert (L : 10 ^ 300 <= bpow radix2 1000).
  { change (bpow radix2 1000) with (IZR (Zpower radix2 1000)). rewrite pow_IZR. apply IZR_le. vm_compute. discriminate. }
  unfold tny. change (-1000)%Z with (- (1000))%Z. rewrite bpow_opp. apply Rinv_le_contravar; [apply pow_lt; lra|exact L].
Qed.
(** ** C92 *)
(** Conversion to Earth-centred coordinates, for every latitude, longitude (up to a whole
    turn either way) and altitude. *)
Theorem C92_geodetic2ecef : forall m lat lon h ell deg, libm_ok m -> axes_ok ell -> site_ok lat lon h deg ->
  within (65 * uu * reach ell h) (fl_geodetic2ecef m lat lon h ell deg) (geodetic2ecef lat lon h ell deg).
Proof.
  intros m lat lon h ell deg M A S. pose proof (geo_ap m M lat lon h ell deg A S) as G. pose proof (reach_tny ell h A) as T.
  destruct (fl_geodetic2ecef m lat lon h ell deg) as [[xf yf] zf]. destruct (geodetic2ecef lat lon h ell deg) as [[x y] z]. destruct G as (G1 & G2 & G3).
  repeat split; (eapply ap_lt; [eassumption|exact T|lra]).
Qed.
(** Rotations between a local frame and the Earth-fixed axes: no coordinate of a
    displacement whose coordinates are at most B is off by more than about 1.3e-14 B. *)
Theorem C92_rotations : forall m a b c lat lon B deg, libm_ok m -> site_ok lat lon 0 deg ->
  Rabs a <= B -> Rabs b <= B -> Rabs c <= B -> / 10 ^ 300 <= B ->
  within (114 * uu * B) (fl_enu2uvw m a b c lat lon deg) (enu2uvw a b c lat lon deg) /\
  within (114 * uu * B) (fl_uvw2enu m a b c lat lon deg) (uvw2enu a b c lat lon deg).
Proof.
  intros m a b c lat lon B deg M (D1 & D2 & _ & H1 & H2) Ha Hb Hc HB. assert (T := tny_300 B HB).
  assert (X : forall xf x, ap (0 + 37) (3 * B) xf x -> Rabs (xf - x) < 114 * uu * B).
  { intros xf x E. replace (114 * uu * B) with (38 * uu * (3 * B)) by ring. eapply ap_lt; [exact E|pose proof tny_pos; lra|lra]. }
  split.
  - pose proof (enu2uvw_ap m M 0 B a a b b c c lat lon deg D1 D2 H1 H2 (ap_exact a B Ha) (ap_exact b B Hb) (ap_exact c B Hc) T ltac:(lra)) as G.
    destruct (fl_enu2uvw m a b c lat lon deg) as [[xf yf] zf]. destruct (enu2uvw a b c lat lon deg) as [[x y] z]. destruct G as (G1 & G2 & G3). repeat split; now apply X.
  - pose proof (uvw2enu_ap m M 0 B a a b b c c lat lon deg D1 D2 H1 H2 (ap_exact a B Ha) (ap_exact b B Hb) (ap_exact c B Hc) T ltac:(lra)) as G.
    destruct (fl_uvw2enu m a b c lat lon deg) as [[xf yf] zf]. destruct (uvw2enu a b c lat lon deg) as [[x y] z]. destruct G as (G1 & G2 & G3). repeat split; now apply X.
Qed.
(** A target given in a local frame, in Earth-centred coordinates. *)
Lemma enu2ecef_ap m e n p lat lon h B ell deg : libm_ok m -> axes_ok ell -> site_ok lat lon h deg ->
  forall k ef nf pf, ap k B ef e -> ap k B nf n -> ap k B pf p -> tny <= B -> k <= 900 ->
  let '(x0, y0, z0) := fl_geodetic2ecef m lat lon h ell deg in
  let '(u, v, w) := fl_enu2uvw m ef nf pf lat lon deg in
  let '(x, y, z) := enu2ecef e n p lat lon h ell deg in
  ap (k + 65.1) (reach ell h + 3 * B) (fl_add x0 u) x /\ ap (k + 65.1) (reach ell h + 3 * B) (fl_add y0 v) y /\ ap (k + 65.1) (reach ell h + 3 * B) (fl_add z0 w) z.
Proof.
  intros M A S k ef nf pf E N P T Hk. assert (S' := S). destruct S' as (D1 & D2 & _ & H1 & H2). pose proof (geo_ap m M lat lon h ell deg A S) as G.
  pose proof (enu2uvw_ap m M k B ef e nf n pf p lat lon deg D1 D2 H1 H2 E N P T ltac:(lra)) as U. unfold enu2ecef. pose proof (reach_tny ell h A). pose proof tny_pos. assert (K := proj1 E).
  destruct (fl_geodetic2ecef m lat lon h ell deg) as [[x0 y0] z0]. destruct (fl_enu2uvw m ef nf pf lat lon deg) as [[u v] w]. destruct (geodetic2ecef lat lon h ell deg) as [[x0e y0e] z0e]. destruct (enu2uvw e n p lat lon deg) as [[ue ve] we].
  destruct G as (G1 & G2 & G3). destruct U as (U1 & U2 & U3).
  split; [|split]; (eapply ap_weaken; [eapply (ap_add (k + 64)); [eassumption|eassumption|lra|lra|lra|lra]|lra|lra]).
Qed.
Theorem C92_enu2ecef : forall m e n p lat lon h B ell deg, libm_ok m -> axes_ok ell -> site_ok lat lon h deg ->
  Rabs e <= B -> Rabs n <= B -> Rabs p <= B -> / 10 ^ 300 <= B ->
  within (66 * uu * (reach ell h + 3 * B)) (fl_enu2ecef m e n p lat lon h ell deg) (enu2ecef e n p lat lon h ell deg).
Proof.
  intros m e n p lat lon h B ell deg M A S He Hn Hp HB. assert (T := tny_300 B HB). pose proof (reach_tny ell h A). pose proof tny_pos.
  pose proof (enu2ecef_ap m e n p lat lon h B ell deg M A S 0 e n p (ap_exact e B He) (ap_exact n B Hn) (ap_exact p B Hp) T ltac:(lra)) as G. unfold fl_enu2ecef.
  destruct (fl_geodetic2ecef m lat lon h ell deg) as [[x0 y0] z0]. destruct (fl_enu2uvw m e n p lat lon deg) as [[u v] w]. destruct (enu2ecef e n p lat lon h ell deg) as [[x y] z]. destruct G as (G1 & G2 & G3).
  repeat split; (eapply ap_lt; [eassumption|lra|lra]).
Qed.
(** Earth-centred coordinates and geodetic coordinates, in a local frame. *)
Lemma ecef2enu_ap m x y z lat lon h B ell deg : libm_ok m -> axes_ok ell -> site_ok lat lon h deg ->
  forall k xf yf zf, ap k B xf x -> ap k B yf y -> ap k B zf z -> tny <= B -> k <= 900 ->
  let '(ef, nf, pf) := fl_ecef2enu m xf yf zf lat lon h ell deg in let '(e, n, p) := ecef2enu x y z lat lon h ell deg in
  ap (k + 102.1) (3 * (B + reach ell h)) ef e /\ ap (k + 102.1) (3 * (B + reach ell h)) nf n /\ ap (k + 102.1) (3 * (B + reach ell h)) pf p.
Proof.
  intros M A S k xf yf zf X Y Z T Hk. assert (S' := S). destruct S' as (D1 & D2 & _ & H1 & H2). pose proof (geo_ap m M lat lon h ell deg A S) as G. pose proof (reach_tny ell h A). pose proof tny_pos. assert (K := proj1 X).
  unfold fl_ecef2enu, ecef2enu. destruct (fl_geodetic2ecef m lat lon h ell deg) as [[x0 y0] z0]. destruct (geodetic2ecef lat lon h ell deg) as [[x0e y0e] z0e]. destruct G as (G1 & G2 & G3).
  assert (Q : forall af a0 a a0e, ap k B af a -> ap 64 (reach ell h) a0 a0e -> ap (k + 65.1) (B + reach ell h) (fl_sub af a0) (a - a0e)).
  { intros af a0 a a0e A1 A2. eapply ap_weaken; [eapply (ap_sub (k + 64)); [eassumption|eassumption|lra|lra|lra|lra]|lra|lra]. }
  pose proof (uvw2enu_ap m M (k + 65.1) (B + reach ell h) _ _ _ _ _ _ lat lon deg D1 D2 H1 H2 (Q _ _ _ _ X G1) (Q _ _ _ _ Y G2) (Q _ _ _ _ Z G3) ltac:(lra) ltac:(lra)) as U.
  destruct (fl_uvw2enu m (fl_sub xf x0) (fl_sub yf y0) (fl_sub zf z0) lat lon deg) as [[ef nf] pf]. destruct (uvw2enu (x - x0e) (y - y0e) (z - z0e) lat lon deg) as [[e n] p].
  replace (k + 102.1) with (k + 65.1 + 37) by lra. exact U.
Qed.
Theorem C92_ecef2enu : forall m x y z lat lon h B ell deg, libm_ok m -> axes_ok ell -> site_ok lat lon h deg ->
  Rabs x <= B -> Rabs y <= B -> Rabs z <= B -> / 10 ^ 300 <= B ->
  within (310 * uu * (B + reach ell h)) (fl_ecef2enu m x y z lat lon h ell deg) (ecef2enu x y z lat lon h ell deg).
Proof.
  intros m x y z lat lon h B ell deg M A S Hx Hy Hz HB. assert (T := tny_300 B HB). pose proof (reach_tny ell h A). pose proof tny_pos.
  pose proof (ecef2enu_ap m x y z lat lon h B ell deg M A S 0 x y z (ap_exact x B Hx) (ap_exact y B Hy) (ap_exact z B Hz) T ltac:(lra)) as G.
  destruct (fl_ecef2enu m x y z lat lon h ell deg) as [[ef nf] pf]. destruct (ecef2enu x y z lat lon h ell deg) as [[e n] p]. destruct G as (G1 & G2 & G3).
  replace (310 * uu * (B + reach ell h)) with (310 / 3 * uu * (3 * (B + reach ell h))) by field. repeat split; (eapply ap_lt; [eassumption|lra|lra]).
Qed.
Lemma geodetic2enu_ap m lat1 lon1 h1 lat lon h ell deg : libm_ok m -> axes_ok ell -> site_ok lat1 lon1 h1 deg -> site_ok lat lon h deg ->
  let '(ef, nf, pf) := fl_geodetic2enu m lat1 lon1 h1 lat lon h ell deg in let '(e, n, p) := geodetic2enu lat1 lon1 h1 lat lon h ell deg in
  ap 103 (3 * (reach ell h1 + reach ell h)) ef e /\ ap 103 (3 * (reach ell h1 + reach ell h)) nf n /\ ap 103 (3 * (reach ell h1 + reach ell h)) pf p.
Proof.
  intros M A S1 S. assert (S' := S). destruct S' as (D1 & D2 & _ & H1 & H2). pose proof (geo_ap m M lat lon h ell deg A S) as G. pose proof (geo_ap m M lat1 lon1 h1 ell deg A S1) as G'. pose proof (reach_tny ell h A). pose proof (reach_tny ell h1 A). pose proof tny_pos.
  unfold fl_geodetic2enu, geodetic2enu. destruct (fl_geodetic2ecef m lat lon h ell deg) as [[x0 y0] z0]. destruct (geodetic2ecef lat lon h ell deg) as [[x0e y0e] z0e]. destruct (fl_geodetic2ecef m lat1 lon1 h1 ell deg) as [[x1 y1] z1]. destruct (geodetic2ecef lat1 lon1 h1 ell deg) as [[x1e y1e] z1e]. destruct G as (G1 & G2 & G3). destruct G' as (F1 & F2 & F3).
  assert (Q : forall af a0 a a0e, ap 64 (reach ell h1) af a -> ap 64 (reach ell h) a0 a0e -> ap 66 (reach ell h1 + reach ell h) (fl_sub af a0) (a - a0e)).
  { intros af a0 a a0e A1 A2. eapply ap_weaken; [eapply (ap_sub 64); [eassumption|eassumption|lra|lra|lra|lra]|lra|lra]. }
  pose proof (uvw2enu_ap m M 66 (reach ell h1 + reach ell h) _ _ _ _ _ _ lat lon deg D1 D2 H1 H2 (Q _ _ _ _ F1 G1) (Q _ _ _ _ F2 G2) (Q _ _ _ _ F3 G3) ltac:(lra) ltac:(lra)) as U.
  destruct (fl_uvw2enu m (fl_sub x1 x0) (fl_sub y1 y0) (fl_sub z1 z0) lat lon deg) as [[ef nf] pf]. destruct (uvw2enu (x1e - x0e) (y1e - y0e) (z1e - z0e) lat lon deg) as [[e n] p].
  replace 103 with (66 + 37) by lra. exact U.
Qed.
Theorem C92_geodetic2enu : forall m lat1 lon1 h1 lat lon h ell deg, libm_ok m -> axes_ok ell -> site_ok lat1 lon1 h1 deg -> site_ok lat lon h deg ->
  within (312 * uu * (reach ell h1 + reach ell h)) (fl_geodetic2enu m lat1 lon1 h1 lat lon h ell deg) (geodetic2enu lat1 lon1 h1 lat lon h ell deg).
Proof.
  intros m lat1 lon1 h1 lat lon h ell deg M A S1 S. pose proof (geodetic2enu_ap m lat1 lon1 h1 lat lon h ell deg M A S1 S) as G. pose proof (reach_tny ell h A). pose proof (reach_tny ell h1 A). pose proof tny_pos.
  destruct (fl_geodetic2enu m lat1 lon1 h1 lat lon h ell deg) as [[ef nf] pf]. destruct (geodetic2enu lat1 lon1 h1 lat lon h ell deg) as [[e n] p]. destruct G as (G1 & G2 & G3).
  replace (312 * uu * (reach ell h1 + reach ell h)) with (104 * uu * (3 * (reach ell h1 + reach ell h))) by ring. repeat split; (eapply ap_lt; [eassumption|lra|lra]).
Qed.
(** Azimuth, elevation and slant range. *)
Lemma aer2enu_ap m az el sr B deg : libm_ok m -> double az -> double el -> Rabs az <= full deg -> Rabs el <= quarter deg -> Rabs sr <= B -> tny <= B ->
  let '(ef, nf, pf) := fl_aer2enu m az el sr deg in let '(e, n, p) := aer2enu az el sr deg in
  ap 35 B ef e /\ ap 35 B nf n /\ ap 35 B pf p.
Proof.
  intros M D1 D2 H1 H2 Hs T. destruct (lat_err m M deg el D2 H2) as [S1 C1]. destruct (lon_err m M deg az D1 H1) as [S2 C2]. pose proof tny_pos. unfold fl_aer2enu, aer2enu. cbv zeta.
  assert (X : forall cf c, ap 9 1 cf c -> ap 10.1 B (fl_mul sr cf) (sr * c)).
  { intros cf c Hc. eapply ap_weaken; [apply (ap_mul 0 9 B 1); [now apply ap_exact|exact Hc|lra|lra]|lra|lra]. }
  assert (Y : forall cf c, ap 23.1 1 cf c -> ap 35 B (fl_mul (fl_mul sr (l_cos m (fl_rad m deg el))) cf) (sr * cos (rad_in deg el) * c)).
  { intros cf c Hc. eapply ap_weaken; [apply (ap_mul 10.1 23.1 B 1); [exact (X _ _ C1)|exact Hc|lra|lra]|lra|lra]. }
  split; [exact (Y _ _ S2)|split; [exact (Y _ _ C2)|]]. eapply ap_weaken; [exact (X _ _ S1)|lra|lra].
Qed.
Theorem C92_aer2enu : forall m az el sr deg, libm_ok m -> double az -> double el -> Rabs az <= full deg -> Rabs el <= quarter deg -> / 10 ^ 300 <= Rabs sr ->
  within (36 * uu * Rabs sr) (fl_aer2enu m az el sr deg) (aer2enu az el sr deg).
Proof.
  intros m az el sr deg M D1 D2 H1 H2 Hs. assert (T := tny_300 _ Hs). pose proof (aer2enu_ap m az el sr (Rabs sr) deg M D1 D2 H1 H2 (Rle_refl _) T) as G.
  destruct (fl_aer2enu m az el sr deg) as [[ef nf] pf]. destruct (aer2enu az el sr deg) as [[e n] p]. destruct G as (G1 & G2 & G3). repeat split; (eapply ap_lt; [eassumption|lra|lra]).
Qed.
Theorem C92_aer2ecef : forall m az el sr lat lon h ell deg, libm_ok m -> axes_ok ell -> site_ok lat lon h deg -> double az -> double el -> Rabs az <= full deg -> Rabs el <= quarter deg -> / 10 ^ 300 <= Rabs sr ->
  within (101 * uu * (reach ell h + 3 * Rabs sr)) (fl_aer2ecef m az el sr lat lon h ell deg) (aer2ecef az el sr lat lon h ell deg).
Proof.
  intros m az el sr lat lon h ell deg M A S D1 D2 H1 H2 Hs. assert (T := tny_300 _ Hs). pose proof (reach_tny ell h A). pose proof tny_pos. pose proof (aer2enu_ap m az el sr (Rabs sr) deg M D1 D2 H1 H2 (Rle_refl _) T) as G.
  unfold fl_aer2ecef. destruct (fl_aer2enu m az el sr deg) as [[ef nf] pf]. unfold aer2ecef. destruct (aer2enu az el sr deg) as [[e n] p]. destruct G as (G1 & G2 & G3).
  pose proof (enu2ecef_ap m e n p lat lon h (Rabs sr) ell deg M A S 35 ef nf pf G1 G2 G3 T ltac:(lra)) as G. unfold enu2ecef in G.
  destruct (fl_geodetic2ecef m lat lon h ell deg) as [[x0 y0] z0]. destruct (fl_enu2uvw m ef nf pf lat lon deg) as [[u v] w]. destruct (geodetic2ecef lat lon h ell deg) as [[xe ye] ze]. destruct (enu2uvw e n p lat lon deg) as [[ue ve] we]. destruct G as (Q1 & Q2 & Q3).
  repeat split; (eapply ap_lt; [eassumption|lra|lra]).
Qed.
(** Round trips, both ways, all in floating point. *)
Theorem C92_enu_round_trip : forall m e n p lat lon h B ell deg, libm_ok m -> axes_ok ell -> site_ok lat lon h deg ->
  Rabs e <= B -> Rabs n <= B -> Rabs p <= B -> / 10 ^ 300 <= B ->
  let '(x, y, z) := fl_enu2ecef m e n p lat lon h ell deg in
  within (504 * uu * (2 * reach ell h + 3 * B)) (fl_ecef2enu m x y z lat lon h ell deg) (e, n, p).
Proof.
  intros m e n p lat lon h B ell deg M A S He Hn Hp HB. assert (T := tny_300 B HB). pose proof (reach_tny ell h A). pose proof tny_pos.
  pose proof (enu2ecef_ap m e n p lat lon h B ell deg M A S 0 e n p (ap_exact e B He) (ap_exact n B Hn) (ap_exact p B Hp) T ltac:(lra)) as G. unfold fl_enu2ecef.
  pose proof (L_frames.enu_ecef_enu e n p lat lon h ell deg) as I.
  destruct (fl_geodetic2ecef m lat lon h ell deg) as [[x0 y0] z0] eqn:E0. destruct (fl_enu2uvw m e n p lat lon deg) as [[u v] w]. destruct (enu2ecef e n p lat lon h ell deg) as [[x y] z]. destruct G as (G1 & G2 & G3).
  pose proof (ecef2enu_ap m x y z lat lon h (reach ell h + 3 * B) ell deg M A S (0 + 65.1) _ _ _ G1 G2 G3 ltac:(lra) ltac:(lra)) as Q. rewrite I in Q.
  destruct (fl_ecef2enu m (fl_add x0 u) (fl_add y0 v) (fl_add z0 w) lat lon h ell deg) as [[ef nf] pf]. destruct Q as (Q1 & Q2 & Q3).
  replace (504 * uu * (2 * reach ell h + 3 * B)) with (168 * uu * (3 * (reach ell h + 3 * B + reach ell h))) by ring. repeat split; (eapply ap_lt; [eassumption|lra|lra]).
Qed.
Theorem C92_ecef_round_trip : forall m x y z lat lon h B ell deg, libm_ok m -> axes_ok ell -> site_ok lat lon h deg ->
  Rabs x <= B -> Rabs y <= B -> Rabs z <= B -> / 10 ^ 300 <= B ->
  let '(e, n, p) := fl_ecef2enu m x y z lat lon h ell deg in
  within (168 * uu * (10 * reach ell h + 9 * B)) (fl_enu2ecef m e n p lat lon h ell deg) (x, y, z).
Proof.
  intros m x y z lat lon h B ell deg M A S Hx Hy Hz HB. assert (T := tny_300 B HB). pose proof (reach_tny ell h A). pose proof tny_pos.
  pose proof (ecef2enu_ap m x y z lat lon h B ell deg M A S 0 x y z (ap_exact x B Hx) (ap_exact y B Hy) (ap_exact z B Hz) T ltac:(lra)) as G.
  pose proof (L_frames.ecef_enu_ecef x y z lat lon h ell deg) as I.
  destruct (fl_ecef2enu m x y z lat lon h ell deg) as [[ef nf] pf]. destruct (ecef2enu x y z lat lon h ell deg) as [[e n] p]. destruct G as (G1 & G2 & G3).
  pose proof (enu2ecef_ap m e n p lat lon h (3 * (B + reach ell h)) ell deg M A S (0 + 102.1) _ _ _ G1 G2 G3 ltac:(lra) ltac:(lra)) as Q. rewrite I in Q. unfold fl_enu2ecef.
  destruct (fl_geodetic2ecef m lat lon h ell deg) as [[x0 y0] z0]. destruct (fl_enu2uvw m ef nf pf lat lon deg) as [[u v] w]. destruct Q as (Q1 & Q2 & Q3).
  replace (168 * uu * (10 * reach ell h + 9 * B)) with (168 * uu * (reach ell h + 3 * (3 * (B + reach ell h)))) by ring. repeat split; (eapply ap_lt; [eassumption|lra|lra]).
Qed.
(** The observer itself: exactly zero, in both directions and whatever the library. *)
Lemma rnd0 : rnd 0 = 0. Proof. apply round_0, valid_rnd_N. Qed.
Lemma fl_mul_0 x : fl_mul x 0 = 0. Proof. unfold fl_mul. rewrite Rmult_0_r. apply rnd0. Qed.
Lemma fl_sub_self x : fl_sub x x = 0. Proof. unfold fl_sub. rewrite Rminus_diag_eq by reflexivity. apply rnd0. Qed.
Theorem C92_observer_exactly_zero : forall m lat lon h ell deg,
  fl_geodetic2enu m lat lon h lat lon h ell deg = (0, 0, 0) /\
  (let '(x, y, z) := fl_geodetic2ecef m lat lon h ell deg in fl_ecef2enu m x y z lat lon h ell deg = (0, 0, 0)) /\
  fl_enu2ecef m 0 0 0 lat lon h ell deg = fl_geodetic2ecef m lat lon h ell deg.
Proof.
  intros m lat lon h ell deg.
  assert (U : fl_uvw2enu m 0 0 0 lat lon deg = (0, 0, 0)). { unfold fl_uvw2enu. cbv zeta. repeat (rewrite ?fl_mul_0; unfold fl_add; rewrite ?Rplus_0_r, ?rnd0). reflexivity. }
  assert (V : fl_enu2uvw m 0 0 0 lat lon deg = (0, 0, 0)). { unfold fl_enu2uvw. cbv zeta. repeat (rewrite ?fl_mul_0; rewrite ?fl_sub_self; unfold fl_add; rewrite ?Rplus_0_r, ?rnd0). reflexivity. }
  unfold fl_geodetic2enu, fl_ecef2enu, fl_enu2ecef. destruct (fl_geodetic2ecef m lat lon h ell deg) as [[x y] z] eqn:E.
  assert (D : double x /\ double y /\ double z) by (unfold fl_geodetic2ecef in E; cbv zeta in E; injection E as <- <- <-; repeat split; apply rnd_double).
  rewrite V, !fl_sub_self. split; [exact U|split; [exact U|]]. unfold fl_add. rewrite !Rplus_0_r. destruct D as (D1 & D2 & D3). now rewrite !rnd_id.
Qed.
(** For the default ellipsoid, observers and targets within 1000 km of the surface: a tenth
    of a micrometre in Earth-centred coordinates, a micrometre in the local frame. *)
Lemma wgs_axes : axes_ok None.
Proof. unfold axes_ok. cbn [ell_a ell_b]. repeat split; lra. Qed.
Theorem C92_earth : forall m lat1 lon1 h1 lat lon h deg, libm_ok m -> site_ok lat1 lon1 h1 deg -> site_ok lat lon h deg -> Rabs h1 <= 1000000 -> Rabs h <= 1000000 ->
  within (1 / 10000000) (fl_geodetic2ecef m lat lon h None deg) (geodetic2ecef lat lon h None deg) /\
  within (1 / 1000000) (fl_geodetic2enu m lat1 lon1 h1 lat lon h None deg) (geodetic2enu lat1 lon1 h1 lat lon h None deg).
Proof.
  intros m lat1 lon1 h1 lat lon h deg M S1 S H1 H. assert (W : forall a b p q, a <= b -> within a p q -> within b p q).
  { intros a b [[p1 p2] p3] [[q1 q2] q3] L (X & Y & Z). cbn. repeat split; lra. }
  split.
  - eapply W; [|apply C92_geodetic2ecef; [exact M|exact wgs_axes|exact S]]. unfold reach, uu. cbn [ell_a]. lra.
  - eapply W; [|apply C92_geodetic2enu; [exact M|exact wgs_axes|exact S1|exact S]]. unfold reach, uu. cbn [ell_a]. lra.
Qed.
(** North-east-down. *)
Theorem C92_ned : forall m a b c lat lon h B ell deg, libm_ok m -> axes_ok ell -> site_ok lat lon h deg ->
  Rabs a <= B -> Rabs b <= B -> Rabs c <= B -> / 10 ^ 300 <= B ->
  within (66 * uu * (reach ell h + 3 * B)) (fl_ned2ecef m a b c lat lon h ell deg) (ned2ecef a b c lat lon h ell deg) /\
  within (310 * uu * (B + reach ell h)) (fl_ecef2ned m a b c lat lon h ell deg) (ecef2ned a b c lat lon h ell deg).
Proof.
  intros m a b c lat lon h B ell deg M A S Ha Hb Hc HB. split.
  - unfold fl_ned2ecef, ned2ecef. apply C92_enu2ecef; try assumption. now rewrite Rabs_Ropp.
  - pose proof (C92_ecef2enu m a b c lat lon h B ell deg M A S Ha Hb Hc HB) as G. unfold fl_ecef2ned, ecef2ned. destruct (fl_ecef2enu m a b c lat lon h ell deg) as [[ef nf] pf]. destruct (ecef2enu a b c lat lon h ell deg) as [[e n] p]. destruct G as (G1 & G2 & G3).
    repeat split; try assumption. replace (- pf - - p) with (- (pf - p)) by ring. now rewrite Rabs_Ropp.
Qed.
(** Slant range, end to end in floating point, on Earth: within 2 mm of the straight-line
    distance between the two points, and within 3 micrometres when the target is at least
    1.1 mm away along each local axis (the 1 mm trim of enu2aer is what costs the 2 mm). *)
Lemma hypot_tri x y : hypot x y <= Rabs x + Rabs y.
Proof.
  unfold hypot. pose proof (Rabs_pos x). pose proof (Rabs_pos y). rewrite <- (sqrt_pow2 (Rabs x + Rabs y)) by lra. apply sqrt_le_1_alt. rewrite <- (pow2_abs x), <- (pow2_abs y). nra.
Qed.
Lemma hypot_ge x y : Rabs x <= hypot x y /\ Rabs y <= hypot x y.
Proof. unfold hypot. pose proof (pow2_ge_0 x). pose proof (pow2_ge_0 y). rewrite <- (sqrt_pow2 (Rabs x)), <- (sqrt_pow2 (Rabs y)) by apply Rabs_pos. rewrite !pow2_abs. split; apply sqrt_le_1_alt; lra. Qed.
Lemma hyp2_norm a b c : hypot (hypot a b) c = vnorm (a, b, c).
Proof. unfold hypot, vnorm, vdot. rewrite <- Rsqr_pow2, Rsqr_sqrt by (pose proof (pow2_ge_0 a); pose proof (pow2_ge_0 b); lra). f_equal. ring. Qed.
Lemma lhyp_err m p q : libm_ok m -> double p -> double q -> (p = 0 \/ 1 / 2000 <= Rabs p) -> (q = 0 \/ 1 / 2000 <= Rabs q) -> Rabs p <= 1000000000 -> Rabs q <= 1000000000 ->
  Rabs (l_hypot m p q - hypot p q) <= 4 * uu * hypot p q.
Proof.
  intros M Dp Dq Hp Hq Lp Lq. destruct M as (_ & _ & HM & _ & _ & _ & _ & _ & _ & _ & HZ). pose proof (hypot_ge p q) as [G1 G2]. pose proof (hypot_tri p q) as G3.
  assert (N : forall t, 1 / 2000 <= t <= 2000000000 -> / 10 ^ 200 <= t <= 10 ^ 200).
  { intros t Ht. assert (X : 10 ^ 10 <= 10 ^ 200) by (apply Rle_pow; [lra|lia]). assert (Y : / 10 ^ 200 <= / 10 ^ 10) by (apply Rinv_le_contravar; [lra|exact X]). set (big := 10 ^ 200) in *. clearbody big. lra. }
  destruct Hp as [->|Hp]; [destruct Hq as [->|Hq]|]; [|apply HM; try assumption; apply N; lra|apply HM; try assumption; apply N; lra].
  rewrite HZ. replace (hypot 0 0) with 0 by (unfold hypot; replace (0 ^ 2 + 0 ^ 2) with 0 by ring; symmetry; apply sqrt_0). rewrite Rminus_0_r, Rabs_R0. lra.
Qed.
Lemma trim_rnd : 9 / 10000 <= rnd (1 / 1000) <= 10001 / 10000000.
Proof. pose proof tny_le_1. pose proof (rnd_err (1 / 1000) 1 ltac:(rewrite Rabs_pos_eq; lra) ltac:(lra)) as E. apply Rabs_le_inv in E. pose proof uu_small. lra. Qed.
Lemma trim_fl v : double v -> double (fl_trim v) /\ (fl_trim v = 0 \/ 9 / 10000 <= Rabs (fl_trim v)) /\ Rabs (fl_trim v - v) <= 10001 / 10000000 /\ (11 / 10000 - 1 / 1000000 <= Rabs v -> fl_trim v = v) /\ Rabs (fl_trim v) <= Rabs v.
Proof.
  intros D. pose proof trim_rnd. unfold fl_trim. destruct (Rlt_dec (Rabs v) (rnd (1 / 1000))) as [L|L].
  - split; [apply (double_int 0); reflexivity|split; [now left|split; [rewrite Rminus_0_l, Rabs_Ropp; lra|split; [lra|rewrite Rabs_R0; apply Rabs_pos]]]].
  - split; [exact D|split; [right; lra|split; [rewrite Rminus_diag_eq, Rabs_R0 by reflexivity; lra|split; [reflexivity|lra]]]].
Qed.
Theorem C92_slant_range : forall m lat lon h lat0 lon0 h0 deg, libm_ok m -> site_ok lat lon h deg -> site_ok lat0 lon0 h0 deg -> Rabs h <= 1000000 -> Rabs h0 <= 1000000 ->
  let r := fl_geodetic2range m lat lon h lat0 lon0 h0 None deg in
  let d := vdist3 (geodetic2ecef lat lon h None deg) (geodetic2ecef lat0 lon0 h0 None deg) in
  Rabs (r - d) < 2 / 1000 /\
  (let '(e, n, u) := geodetic2enu lat lon h lat0 lon0 h0 None deg in
   11 / 10000 <= Rabs e -> 11 / 10000 <= Rabs n -> 11 / 10000 <= Rabs u -> Rabs (r - d) < 3 / 1000000).
Proof.
  intros m lat lon h lat0 lon0 h0 deg M S S0 H H0. cbv zeta.
  assert (D : vdist3 (geodetic2ecef lat lon h None deg) (geodetic2ecef lat0 lon0 h0 None deg) = vnorm (geodetic2enu lat lon h lat0 lon0 h0 None deg)).
  { rewrite L_frames.geodetic2enu_ecef2enu. destruct (geodetic2ecef lat lon h None deg) as [[x y] z]. symmetry. apply L_aer.ecef2enu_norm. }
  rewrite D. clear D. pose proof (proj2 (C92_earth m lat lon h lat0 lon0 h0 deg M S S0 H H0)) as W. pose proof (geodetic2enu_ap m lat lon h lat0 lon0 h0 None deg M wgs_axes S S0) as G.
  unfold fl_geodetic2range. assert (DD : let '(a, b, c) := fl_geodetic2enu m lat lon h lat0 lon0 h0 None deg in double a /\ double b /\ double c).
  { unfold fl_geodetic2enu. destruct (fl_geodetic2ecef m lat lon h None deg) as [[a b] c]. destruct (fl_geodetic2ecef m lat0 lon0 h0 None deg) as [[a' b'] c']. unfold fl_uvw2enu. cbv zeta. refine (conj _ (conj _ _)); apply rnd_double. }
  destruct (fl_geodetic2enu m lat lon h lat0 lon0 h0 None deg) as [[ef nf] pf]. destruct (geodetic2enu lat lon h lat0 lon0 h0 None deg) as [[e n] p]. destruct DD as (D1 & D2 & D3).
  destruct W as (W1 & W2 & W3). destruct G as ((_ & G1 & _) & (_ & G2 & _) & (_ & G3 & _)). unfold reach in *. cbn [ell_a] in *.
  assert (X : forall vf v, Rabs (vf - v) < 1 / 1000000 -> Rabs v <= 3 * (10 / 9 * 6378137 + Rabs h + (10 / 9 * 6378137 + Rabs h0)) -> Rabs vf <= 50000000).
  { intros vf v A B. replace vf with ((vf - v) + v) by ring. apply Rle_trans with (1 := Rabs_triang _ _). lra. }
  pose proof (X _ _ W1 G1) as X1. pose proof (X _ _ W2 G2) as X2. pose proof (X _ _ W3 G3) as X3. clear X.
  destruct (trim_fl ef D1) as (A1 & A2 & A3 & A4 & A5). destruct (trim_fl nf D2) as (B1 & B2 & B3 & B4 & B5). destruct (trim_fl pf D3) as (C1 & C2 & C3 & C4 & C5).
  unfold fl_enu2range. cbv zeta. set (e' := fl_trim ef) in *. set (n' := fl_trim nf) in *. set (p' := fl_trim pf) in *. clearbody e' n' p'. pose proof uu_pos as U0. pose proof uu_small as U1.
  pose proof (lhyp_err m e' n' M A1 B1 ltac:(destruct A2; [left|right]; lra) ltac:(destruct B2; [left|right]; lra) ltac:(lra) ltac:(lra)) as L1.
  pose proof (hypot_tri e' n') as T1. pose proof (hypot_ge e' n') as [T2 T3]. set (r := l_hypot m e' n') in *. set (r0 := hypot e' n') in *. assert (DR : double r) by apply M.
  assert (L1' : Rabs (r - r0) <= 5 / 100000000) by (apply Rle_trans with (1 := L1); unfold uu; lra).
  assert (R1 : r = 0 \/ 1 / 2000 <= Rabs r).
  { apply Rabs_le_inv in L1'. assert (Q : 9 / 10000 <= r0 -> 1 / 2000 <= Rabs r) by (intros Q; rewrite Rabs_pos_eq; lra).
    destruct A2 as [Ea|Ea]; [|right; apply Q; lra]. destruct B2 as [Eb|Eb]; [|right; apply Q; lra]. left. subst r. rewrite Ea, Eb. apply M. }
  assert (RB : Rabs r <= 200000000). { apply Rabs_le_inv in L1'. pose proof (Rabs_pos e'). apply Rabs_le. lra. }
  pose proof (lhyp_err m r p' M DR C1 R1 ltac:(destruct C2; [left|right]; lra) ltac:(lra) ltac:(lra)) as L2. pose proof (hypot_tri r p') as T4. pose proof (hypot_ge r p') as [T5 _].
  assert (L2' : Rabs (l_hypot m r p' - hypot r p') <= 12 / 100000000) by (apply Rle_trans with (1 := L2); unfold uu; lra).
  assert (L3 : Rabs (hypot r p' - vnorm (e', n', p')) <= 5 / 100000000).
  { rewrite <- hyp2_norm. fold r0. apply Rle_trans with (1 := L_ecefacc2.hypot_lip _ _ _ _). replace (p' - p') with 0 by ring. apply Rle_trans with (1 := hypot_tri _ _). rewrite Rabs_R0. lra. }
  assert (Z : forall d, 0 < d -> within d (e', n', p') (e, n, p) -> Rabs (l_hypot m r p' - vnorm (e, n, p)) < 17 / 100000000 + sqrt 3 * d).
  { intros d Hd Wd. pose proof (L_aer.vnorm_diff (e', n', p') (e, n, p)). pose proof (L_aer.within_dist d _ _ Hd Wd).
    replace (l_hypot m r p' - vnorm (e, n, p)) with ((l_hypot m r p' - hypot r p') + ((hypot r p' - vnorm (e', n', p')) + (vnorm (e', n', p') - vnorm (e, n, p)))) by ring.
    apply Rle_lt_trans with (1 := Rabs_triang _ _). pose proof (Rabs_triang (hypot r p' - vnorm (e', n', p')) (vnorm (e', n', p') - vnorm (e, n, p))). lra. }
  assert (Q3 : sqrt 3 < 174 / 100). { rewrite <- (sqrt_pow2 (174 / 100)) by lra. apply sqrt_lt_1_alt. lra. }
  assert (Y : forall vf v v', Rabs (vf - v) < 1 / 1000000 -> Rabs (v' - vf) <= 10001 / 10000000 -> Rabs (v' - v) < 1002 / 1000000).
  { intros vf v v' P Q. replace (v' - v) with ((v' - vf) + (vf - v)) by ring. apply Rle_lt_trans with (1 := Rabs_triang _ _). lra. }
  split.
  - apply Rlt_trans with (1 := Z (1002 / 1000000) ltac:(lra) (conj (Y _ _ _ W1 A3) (conj (Y _ _ _ W2 B3) (Y _ _ _ W3 C3)))). lra.
  - intros He Hn Hp. assert (V : forall vf v, Rabs (vf - v) < 1 / 1000000 -> 11 / 10000 <= Rabs v -> 11 / 10000 - 1 / 1000000 <= Rabs vf).
    { intros vf v P Q. pose proof (Rabs_triang_inv v (v - vf)) as T. replace (v - (v - vf)) with vf in T by ring. rewrite (Rabs_minus_sym v vf) in T. lra. }
    rewrite (A4 (V _ _ W1 He)), (B4 (V _ _ W2 Hn)), (C4 (V _ _ W3 Hp)) in *. apply Rlt_trans with (1 := Z (1 / 1000000) ltac:(lra) (conj W1 (conj W2 W3))). lra.
Qed.

(** A library that rounds correctly meets the assumptions, and so does a site on Earth. *)
Definition libm_correct : libm :=
  {| l_sin := fun x => rnd (sin x); l_cos := fun x => rnd (cos x); l_hypot := fun x y => rnd (hypot x y);
     l_sq := fun x => rnd (x ^ 2); l_radians := fun x => rnd (radians x) |}.
Example C92_nonvacuous : libm_ok libm_correct /\ axes_ok None /\ site_ok 42 (-71) 300 true.
Proof.
  assert (B1 : forall t, -1 <= t <= 1 -> Rabs (rnd t - t) <= 4 * uu).
  { intros t Ht. pose proof uu_pos. pose proof tny_le_1. pose proof (rnd_err t 1 ltac:(apply Rabs_le; lra) ltac:(lra)). lra. }
  pose proof uu_pos as U0. pose proof tny_pos as T0.
  assert (P300 : forall k, (k <= 300)%nat -> / 10 ^ 300 <= / 10 ^ k) by (intros k Hk; apply Rinv_le_contravar; [apply pow_lt; lra|apply Rle_pow; [lra|exact Hk]]).
  split; [|split; [exact wgs_axes|]].
  - unfold libm_ok, libm_correct. cbn [l_sin l_cos l_hypot l_sq l_radians]. repeat apply conj; try (intros; apply rnd_double); try (unfold hypot; replace (0 ^ 2 + 0 ^ 2) with 0 by ring; rewrite sqrt_0; apply rnd0).
    + intros x _ _. apply B1, SIN_bound.
    + intros x _ _. apply B1, COS_bound.
    + intros x y _ _ [L _]. pose proof (P300 200%nat ltac:(lia)) as Q. pose proof (p10 200). assert (H0 : 0 <= hypot x y) by lra. assert (T := tny_300 _ (Rle_trans _ _ _ Q L)). pose proof (rnd_err (hypot x y) (hypot x y) ltac:(rewrite Rabs_pos_eq; lra) T) as E. clear - E U0 H0. nra.
    + intros x _ [L _]. pose proof (p10 100). assert (Q : / 10 ^ 300 <= x ^ 2).
      { rewrite <- (pow2_abs x). apply Rle_trans with ((/ 10 ^ 100) ^ 2); [|apply pow_incr; lra]. replace ((/ 10 ^ 100) ^ 2) with (/ 10 ^ 200) by (rewrite <- Rinv_pow by (apply pow_nonzero; lra); f_equal; rewrite <- pow_mult; reflexivity). apply P300. lia. }
      pose proof (rnd_err (x ^ 2) (x ^ 2) ltac:(rewrite Rabs_pos_eq; [lra|apply pow2_ge_0]) (tny_300 _ Q)) as E. pose proof (pow2_ge_0 x) as H0. clear - E U0 H0. set (t := x ^ 2) in *. nra.
    + intros x _ _. set (r := radians x). destruct (Rle_lt_dec tny (Rabs r)) as [L|L].
      * pose proof (rnd_err r (Rabs r) (Rle_refl _) L) as E. pose proof (Rabs_pos r) as H0. pose proof (p10 300) as H1. set (w := / 10 ^ 300) in *. clearbody w. clear - E H0 H1 U0. nra.
      * pose proof (rnd_err r tny ltac:(lra) (Rle_refl _)) as E. pose proof (Rabs_pos r) as H0. pose proof (tny_300 _ (Rle_refl _)) as T. pose proof uu_small as U1. set (w := / 10 ^ 300) in *. clearbody w. clear - E H0 T U0 U1 T0. assert (0 <= uu * Rabs r) by nra. nra.
  - unfold site_ok, quarter, full. rewrite Rabs_pos_eq, Rabs_left by lra. refine (conj _ (conj _ (conj _ (conj _ _)))); [apply (double_int 42); reflexivity|apply (double_int (-71)); reflexivity|apply (double_int 300); reflexivity|lra|lra].
Qed.
