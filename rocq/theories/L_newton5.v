(** Karney's search for the departure azimuth converges away from the antipode. *)
From Coq Require Import Reals Lra Lia Psatz.
From Coquelicot Require Import Coquelicot.
From Verif Require Import PyMath M_karney L_PyMath L_karney L_karney2 L_karney3 L_karney5 L_karney6 L_karney7 L_karney8 L_series2 L_vincenty3 L_vin1 L_vin3 L_geodesic7 L_geodesic9 L_geodesic10 L_newton1 L_newton2 L_newton3 L_newton4.
From Verif Require L_vincenty2 M_vincenty.
Open Scope R_scope.

Lemma sin_lip a b : Rabs (sin a - sin b) <= Rabs (a - b).
Proof.
  rewrite <- (Rmult_1_l (Rabs (a - b))). apply (mvt_abs sin b a 1). intros z _. exists (cos z). split; [apply is_derive_Reals, derivable_pt_lim_sin|]. apply L_vincenty2.abs_cos.
Qed.
Lemma one_minus_cos o : 1 - cos o <= o ^ 2 / 2.
Proof.
  replace o with (2 * (o / 2)) at 1 by field. rewrite cos_2a_sin. pose proof (sin_lip (o / 2) 0) as L. rewrite sin_0, !Rminus_0_r in L. pose proof (Rabs_pos (sin (o / 2))).
  assert (Q : Rsqr (sin (o / 2)) <= Rsqr (o / 2)) by (apply Rsqr_le_abs_1; exact L). unfold Rsqr in Q. nra.
Qed.
Lemma x_cos_le_sin y : 0 <= y <= PI / 2 -> y * cos y <= sin y.
Proof.
  intros H. destruct (Req_dec y 0) as [-> |N]; [rewrite sin_0; lra|]. destruct (MVT_cor2 (fun t => sin t - t * cos t) (fun t => t * sin t) 0 y ltac:(lra)) as (c & E & C).
  { intros c _. apply is_derive_Reals. auto_derive; [exact I|]. ring. }
  rewrite sin_0, Rmult_0_l, !Rminus_0_r in E. assert (0 <= sin c) by (apply sin_ge_0; pose proof PI_RGT_0; lra). assert (0 <= c * sin c * y) by (apply Rmult_le_pos; [apply Rmult_le_pos|]; lra). lra.
Qed.
Section Conv.
Variables (g : Geodesic) (U1 U2 lam : R).
Hypothesis O : oblate g.
Hypothesis Hf : gd_f g <= 1 / 100.
Hypothesis V1 : - PI/2 < U1 < PI/2.
Hypothesis V2 : - PI/2 < U2 < PI/2.
Hypothesis N1 : sin U1 < 0.
Hypothesis Le : Rabs (sin U2) <= - sin U1.
Hypothesis Hl : 0 < lam < PI.
Let f := gd_f g.
Let s := sin lam.
Let sig := sg U1 U2.
Let S := aS U1 U2.
Let x := xx U1 U2.
Hypothesis Hsig : f * sg U1 U2 lam <= sin (sg U1 U2 lam) / 50.
Hypothesis Hlam : f * lam <= sin lam / 50.
Let h := hcor (gd_n g) (gd_ep2 g) U1 U2 f.
Let f01 : 0 <= f <= 1 / 100. Proof. destruct O as (_ & F & _). unfold f. lra. Qed.
Let s01 : 0 < s <= 1. Proof. unfold s. split; [apply sin_gt_0; lra|]. pose proof (SIN_bound lam). lra. Qed.
Let s_le : s <= lam /\ s <= PI - lam.
Proof. unfold s. split; [left; apply sin_lt_x; lra|]. rewrite <- sin_PI_x. left. apply sin_lt_x. lra. Qed.
Lemma in_range z : inI lam s z -> 0 < z < PI /\ 92 / 100 * s <= sin z <= 108 / 100 * s.
Proof.
  intros H. pose proof (sin_lip z lam) as L. unfold inI in H. fold s in L. destruct s_le. assert (L2 : Rabs (sin z - s) <= 8 / 100 * s) by lra. apply Rabs_le_between in H. apply Rabs_le_between in L2. lra.
Qed.
Let between z t : inI lam s z -> Rmin lam z <= t <= Rmax lam z -> inI lam s t.
Proof. intros H T. apply (inI_between lam s lam z t); [|exact H|exact T]. unfold inI. rewrite Rminus_diag_eq, Rabs_R0 by reflexivity. lra. Qed.
Lemma xS_le z : inI lam s z -> 0 <= x z / S z <= 100 / 92 / s.
Proof.
  intros H. destruct (in_range z H) as [R [L _]]. destruct (xs_le U1 U2 V1 V2 Le z R) as [A B]. fold x S in A, B. pose proof (aS_pos U1 U2 V1 V2 z R) as P. fold S in P.
  assert (Q : 0 <= x z / S z) by (apply Rmult_le_pos; [exact B|left; now apply Rinv_0_lt_compat]). split; [exact Q|]. apply Rmult_le_reg_r with s; [lra|]. replace (100 / 92 / s * s) with (100 / 92) by (field; lra). nra.
Qed.
Lemma S_ratio z : inI lam s z -> 913 / 1000 * S lam <= S z <= 1096 / 1000 * S lam.
Proof.
  intros H. destruct (in_range z H) as [R _]. pose proof (aS_pos U1 U2 V1 V2 z R) as P. pose proof (aS_pos U1 U2 V1 V2 lam Hl) as P0. fold S in P, P0.
  assert (D : Rabs (ln (S z) - ln (S lam)) <= 100 / 92 / s * Rabs (z - lam)).
  { apply (mvt_abs (fun o => ln (S o))). intros t Ht. pose proof (between z t H Ht) as It. destruct (in_range t It) as [Rt _]. destruct (lnS_derive U1 U2 V1 V2 Le t Rt) as (d & Dd & Bd).
    exists d. split; [exact Dd|]. apply Rle_trans with (1 := Bd). apply (xS_le t It). }
  assert (D2 : Rabs (ln (S z) - ln (S lam)) <= 87 / 1000).
  { apply Rle_trans with (1 := D). apply Rle_trans with (100 / 92 / s * (8 / 100 * s)); [apply Rmult_le_compat_l; [|exact H]; apply Rmult_le_pos; [lra|left; apply Rinv_0_lt_compat; lra]|]. replace (100 / 92 / s * (8 / 100 * s)) with (8 / 92) by (field; lra). lra. }
  assert (E : S z = S lam * exp (ln (S z) - ln (S lam))) by (unfold Rminus; rewrite exp_plus, exp_Ropp, !exp_ln by assumption; field; lra).
  apply Rabs_le_between in D2. set (y := ln (S z) - ln (S lam)) in *.
  assert (B : 913 / 1000 <= exp y <= 1096 / 1000).
  { split.
    - apply Rle_trans with (1 - 87 / 1000); [lra|]. apply Rle_trans with (exp (- (87 / 1000))); [apply exp_lo|]. destruct (Req_dec (- (87 / 1000)) y) as [<-|]; [lra|left; apply exp_increasing; lra].
    - apply Rle_trans with (exp (87 / 1000)); [destruct (Req_dec y (87 / 1000)) as [<-|]; [lra|left; apply exp_increasing; lra]|]. apply Rle_trans with (/ (1 - 87 / 1000)); [apply exp_hi; lra|lra]. }
  rewrite E. nra.
Qed.
Let sig_nn z : 0 <= sig z. Proof. destruct (sg_cs U1 U2 z) as (_ & A & _). unfold sig. lra. Qed.
Let S_sig z : S z <= sig z.
Proof. unfold S, aS. fold sig. destruct (Req_dec (sig z) 0) as [E|E]; [rewrite E, sin_0; lra|]. left. apply sin_lt_x. pose proof (sig_nn z). lra. Qed.
Lemma sig_ratio z : inI lam s z -> sig z <= 1096 / 1000 * sig lam.
Proof.
  intros H. pose proof (S_sig lam) as L. pose proof (aS_pos U1 U2 V1 V2 lam Hl) as P0. fold S in P0.
  assert (D : Rabs (sig z - sig lam) <= 100 / 92 / s * (1096 / 1000 * S lam) * Rabs (z - lam)).
  { apply mvt_abs. intros t Ht. pose proof (between z t H Ht) as It. destruct (in_range t It) as [Rt _]. pose proof (aS_pos U1 U2 V1 V2 t Rt) as P. fold S in P. exists (x t). split; [apply sg_derive; exact P|].
    pose proof (xS_le t It) as [X0 X1]. pose proof (S_ratio t It) as [_ S1]. replace (x t) with (x t / S t * S t) by (field; lra). rewrite Rabs_right by (apply Rle_ge, Rmult_le_pos; lra). apply Rmult_le_compat; lra. }
  assert (D2 : Rabs (sig z - sig lam) <= 96 / 1000 * S lam).
  { apply Rle_trans with (1 := D). apply Rle_trans with (100 / 92 / s * (1096 / 1000 * S lam) * (8 / 100 * s)); [apply Rmult_le_compat_l; [|exact H]; apply Rmult_le_pos; [|lra]; apply Rmult_le_pos; [lra|left; apply Rinv_0_lt_compat; lra]|].
    replace (100 / 92 / s * (1096 / 1000 * S lam) * (8 / 100 * s)) with (8 / 92 * (1096 / 1000) * S lam) by (field; lra). lra. }
  apply Rabs_le_between in D2. lra.
Qed.
Lemma fs_le z : inI lam s z -> f * (sig z / S z) <= 242 / 10000.
Proof.
  intros H. destruct (S_ratio z H) as [A _]. pose proof (sig_ratio z H) as B. pose proof (aS_pos U1 U2 V1 V2 lam Hl) as P0. fold S in P0. pose proof Hsig as HS. change (f * sig lam <= S lam / 50) in HS. pose proof (sig_nn z).
  apply Rmult_le_reg_r with (S z); [lra|]. replace (f * (sig z / S z) * S z) with (f * sig z) by (field; lra). apply Rle_trans with (f * (1096 / 1000 * sig lam)); [apply Rmult_le_compat_l; lra|]. lra.
Qed.
Let small := oblate_small g O Hf.
Lemma rate z : 0 < z < PI -> Rabs (h z) <= 10056 / 10000 * (f * (sig z / S z) * sin z) /\ h z <= 0 /\ exists d, is_derive h z d /\ Rabs d <= f * (102 / 100 * (sig z / S z) + 102 / 100).
Proof.
  intros R. destruct small as (Hn & Hp & _). pose proof (aS_pos U1 U2 V1 V2 z R) as P. fold S in P. destruct (hcor_rate (gd_n g) (gd_ep2 g) U1 U2 Hn Hp V1 V2 N1 Le z R f (proj1 f01)) as [A B]. fold h in A, B. fold sig x in A. fold sig S in B.
  destruct (c_pos U1 U2 V1 V2) as [C1 C2]. assert (So : 0 < sin z) by (apply sin_gt_0; lra). pose proof (sig_nn z) as G.
  assert (XE : x z * sig z = cos U1 * cos U2 * sin z * (sig z / S z)) by (unfold x, xx; fold (sig z); change (sin (sig z)) with (S z); field; lra).
  assert (Q : 0 <= sig z / S z) by (apply Rmult_le_pos; [exact G|left; now apply Rinv_0_lt_compat]).
  split; [|split; [|exact B]].
  - apply Rle_trans with (1 := A). apply Rmult_le_compat_l; [lra|]. rewrite Rmult_assoc. apply Rmult_le_compat_l; [lra|]. rewrite XE. assert (K : cos U1 * cos U2 <= 1) by nra. assert (W : 0 <= sin z * (sig z / S z)) by (apply Rmult_le_pos; lra). nra.
  - destruct (mcor_rate (gd_n g) (gd_ep2 g) U1 U2 Hn Hp V1 V2 N1 Le z R) as [M _]. unfold h. rewrite hcor_alt. apply Rabs_le_between in M. fold sig in M |- *. fold x.
    destruct (xx_le U1 U2 V1 V2 z P ltac:(lra)) as [[X0 _] _]. fold x in X0. assert (W : 0 <= x z * (sig z + mcor (gd_n g) (gd_ep2 g) U1 U2 z)) by (apply Rmult_le_pos; lra). nra.
Qed.
Let s1 := sin U1. Let s2 := sin U2. Let c1 := cos U1. Let c2 := cos U2.
Let dn1 := sqrt (1.0 + gd_ep2 g * s1 ^ 2). Let dn2 := sqrt (1.0 + gd_ep2 g * s2 ^ 2).
Let ev := fun sa ca dp => Lambda12 g s1 c1 dn1 s2 c2 dn2 sa ca (sin lam) (cos lam) dp.
Lemma converges_from o x0 y z t last : Rabs (o - lam) <= 5 / 100 * s -> Rabs (o - lam + h o) <= 21 / 1000 * s ->
  exists sa ca, newton_loop k_maxit2 ev (mkNstate (sin (az U1 U2 o)) (cos (az U1 U2 o)) x0 y z t false) last = (sa, ca, ev sa ca true) /\ Rabs (l_lam12 (ev sa ca true)) < 8 * k_tol0.
Proof.
  intros Ho Hv.
  apply (newton_converges lam s (az U1 U2) (aw U1 U2) h (fun o => l_dlam12 (ev (sin (az U1 U2 o)) (cos (az U1 U2 o)) true))) with (o := o); try reflexivity; try assumption.
  - apply s01.
  - intros w Hw. apply az_derive; try assumption. apply (in_range w Hw).
  - intros w Hw. apply aw_pos; try assumption. apply (in_range w Hw).
  - intros w Hw. destruct (in_range w Hw) as [Rw _]. destruct (lnw_derive U1 U2 V1 V2 N1 Le w Rw) as (d & D & B). exists d. split; [exact D|]. apply Rle_trans with (1 := B). pose proof (xS_le w Hw) as [_ X]. fold x S.
    apply Rle_trans with (6 * (100 / 92 / s)); [lra|]. replace (6 * (100 / 92 / s)) with (600 / 92 * / s) by (field; lra). unfold Rdiv at 3. apply Rmult_le_compat_r; [left; apply Rinv_0_lt_compat; lra|lra].
  - intros w Hw. destruct (in_range w Hw) as [Rw Sw]. destruct (rate w Rw) as [A _]. pose proof (fs_le w Hw) as F. apply Rle_trans with (1 := A). apply Rle_trans with (10056 / 10000 * (242 / 10000 * (108 / 100 * s))); [|lra]. apply Rmult_le_compat_l; [lra|].
    assert (0 < sin w) by lra. assert (0 <= f * (sig w / S w)). { pose proof (aS_pos U1 U2 V1 V2 w Rw) as P. fold S in P. pose proof (sig_nn w). apply Rmult_le_pos; [lra|]. apply Rmult_le_pos; [lra|left; now apply Rinv_0_lt_compat]. } apply Rmult_le_compat; lra.
  - intros w Hw. destruct (in_range w Hw) as [Rw _]. destruct (rate w Rw) as (_ & _ & d & D & B). pose proof (fs_le w Hw) as F. exists d. split; [exact D|]. apply Rle_trans with (1 := B). lra.
  - intros w Hw. destruct (in_range w Hw) as [Rw _]. pose proof (fs_le w Hw) as F. unfold inI in Hw. destruct (equation_at g U1 U2 lam w O Hf V1 V2 N1 Le Rw ltac:(pose proof PI_RGT_0; pose proof PI2_3_2; lra)) as [_ B].
    apply Rle_trans with (1 := B). change (sg U1 U2 w / aS U1 U2 w) with (sig w / S w). fold f. lra.
  - apply s01.
  - intros w Hw. destruct (in_range w Hw) as [Rw _]. unfold inI in Hw. destruct (equation_at g U1 U2 lam w O Hf V1 V2 N1 Le Rw ltac:(pose proof PI_RGT_0; pose proof PI2_3_2; lra)) as [A _]. split; [|split; [exact A|reflexivity]].
    destruct (az_range U1 U2 w). apply sin_gt_0; lra.
Qed.
Lemma lam_converges : exists o, InverseStart g s1 c1 dn1 s2 c2 dn2 lam (sin lam) (cos lam) = (sin (az U1 U2 o), cos (az U1 U2 o)) /\ Rabs (o - lam) <= 5 / 100 * s /\ Rabs (o - lam + h o) <= 21 / 1000 * s.
Proof.
  destruct (c_pos U1 U2 V1 V2) as [C1 C2]. fold c1 in C1. fold c2 in C2. pose proof (c12 U1 U2 V1 V2 Le) as CC. fold c1 c2 in CC.
  assert (fin : forall o, 0 < o < PI -> (0 <= cos (sig o) \/ 6 * f * PI * c1 ^ 2 <= S o) ->
    (let salp1 := c2 * sin o in
     let calp1 := if Rle_dec 0 (cos o) then (s2 * c1 - c2 * s1) + c2 * s1 * sin o ^ 2 / (1.0 + cos o) else (s2 * c1 + c2 * s1) - c2 * s1 * sin o ^ 2 / (1.0 - cos o) in
     let ssig12 := hypot salp1 calp1 in
     let csig12 := s1 * s2 + c1 * c2 * cos o in
     (if Rle_dec 0 csig12 then true else if Rle_dec (6 * Rabs (gd_f g) * PI * c1 ^ 2) ssig12 then true else false) = true /\
     (if Rlt_dec 0 salp1 then norm2 salp1 calp1 else (1.0, 0.0)) = (sin (az U1 U2 o), cos (az U1 U2 o)))).
  { intros o Ho Hok. cbv zeta. assert (So : 0 < sin o) by (apply sin_gt_0; lra). pose proof (sc1 o) as Q. assert (CR : -1 < cos o < 1) by (clear - So Q; nra). pose proof (aS_pos U1 U2 V1 V2 o Ho) as P. fold S in P.
    replace 1.0 with 1 by lra.
    assert (CA : (if Rle_dec 0 (cos o) then (s2 * c1 - c2 * s1) + c2 * s1 * sin o ^ 2 / (1 + cos o) else (s2 * c1 + c2 * s1) - c2 * s1 * sin o ^ 2 / (1 - cos o)) = aT1 U1 U2 o).
    { unfold aT1. fold s1 s2 c1 c2. replace (sin o ^ 2) with (1 - cos o ^ 2) by lra. destruct (Rle_dec 0 (cos o)); field; lra. }
    rewrite CA. assert (HY : hypot (c2 * sin o) (aT1 U1 U2 o) = S o).
    { unfold hypot. unfold c2. rewrite <- (aS2 U1 U2 o). fold S. apply sqrt_pow2. lra. }
    rewrite HY. destruct (sg_cs U1 U2 o) as (CS & _). fold sig s1 s2 c1 c2 in CS. split.
    - rewrite <- CS, (Rabs_right (gd_f g)) by (fold f; lra). fold f. destruct (Rle_dec 0 (cos (sig o))) as [|X]; [reflexivity|]. destruct (Rle_dec (6 * f * PI * c1 ^ 2) (S o)) as [|Y]; [reflexivity|]. exfalso. destruct Hok; contradiction.
    - destruct (Rlt_dec 0 (c2 * sin o)) as [_|X]; [|exfalso; apply X; apply Rmult_lt_0_compat; lra]. unfold norm2. rewrite HY. rewrite (az_sin U1 U2 V1 V2 o Ho), (az_cos U1 U2 V1 V2 o Ho). reflexivity. }
  unfold InverseStart. cbv zeta. set (dnm := sqrt (1.0 + gd_ep2 g * ((s1 + s2) ^ 2 / ((s1 + s2) ^ 2 + (c1 + c2) ^ 2)))).
  match goal with |- context [if (if Rle_dec 0 ?p then _ else _) then _ else _] => idtac end.
  set (short := if Rle_dec 0 (c2 * c1 + s2 * s1) then if Rlt_dec (s2 * c1 - c2 * s1) 0.5 then if Rlt_dec (c2 * lam) 0.5 then true else false else false else false).
  destruct short eqn:SH.
  - set (o := lam / (gd_f1 g * dnm)).
    assert (K : 0 <= c2 * c1 + s2 * s1 /\ s2 * c1 - c2 * s1 < / 2 /\ c2 * lam < / 2). { unfold short in SH. destruct (Rle_dec 0 _); [|discriminate]. destruct (Rlt_dec _ 0.5); [|discriminate]. destruct (Rlt_dec (c2 * lam) 0.5); [|discriminate]. lra. }
    destruct K as (K1 & K2 & K3). destruct small as (Hn & Hp & _ & FP & _). pose proof O as (_ & _ & F1 & _). fold f in F1.
    assert (DF : 1 - f <= gd_f1 g * dnm <= 1).
    { pose (q := sqrt ((s1 + s2) ^ 2 / ((s1 + s2) ^ 2 + (c1 + c2) ^ 2))). pose proof (pow2_ge_0 (s1 + s2)) as Y. assert (Z : 0 < (c1 + c2) ^ 2) by (apply pow_lt; lra).
      assert (QQ : 0 <= (s1 + s2) ^ 2 / ((s1 + s2) ^ 2 + (c1 + c2) ^ 2) <= 1). { split; [apply Rmult_le_pos; [exact Y|left; apply Rinv_0_lt_compat; lra]|]. apply Rmult_le_reg_r with ((s1 + s2) ^ 2 + (c1 + c2) ^ 2); [lra|]. unfold Rdiv. rewrite Rmult_assoc, Rinv_l; lra. }
      assert (Q2 : q ^ 2 = (s1 + s2) ^ 2 / ((s1 + s2) ^ 2 + (c1 + c2) ^ 2)) by (apply pow2_sqrt; apply QQ).
      destruct (dn_facts (gd_ep2 g) q (proj1 Hp)) as [D1 D2]. rewrite Q2 in D1, D2. fold dnm in D1, D2. apply (fd_facts f _ (gd_ep2 g) q); [lra|exact F1|exact FP|apply Hp|rewrite Q2; exact QQ|exact D1|rewrite Q2; exact D2]. }
    set (r := gd_f1 g * dnm) in *. assert (OR : o * r = lam) by (unfold o; field; lra). assert (o0 : 0 < o) by (unfold o; apply Rdiv_lt_0_compat; lra).
    assert (OL : lam <= o <= lam / (1 - f)). { split; [nra|]. apply Rmult_le_reg_r with (1 - f); [lra|]. replace (lam / (1 - f) * (1 - f)) with lam by (field; lra). nra. }
    assert (OD : o - lam <= 203 / 10000 * s). { assert (lam / (1 - f) - lam <= 203 / 10000 * s); [|lra]. replace (lam / (1 - f) - lam) with (f * lam / (1 - f)) by (field; lra). apply Rmult_le_reg_r with (1 - f); [lra|]. replace (f * lam / (1 - f) * (1 - f)) with (f * lam) by (field; lra). pose proof Hlam as HL. fold s in HL. assert (f * s <= 1 / 100 * s) by (apply Rmult_le_compat_r; lra). lra. }
    assert (Io : inI lam s o) by (unfold inI; rewrite Rabs_right; lra). destruct (in_range o Io) as [Ro So].
    assert (CS : 73 / 100 <= cos (sig o)).
    { destruct (sg_cs U1 U2 o) as (CS & _). fold sig s1 s2 c1 c2 in CS. rewrite CS.
      assert (Q0 : 0 <= s2 * c1 - c2 * s1). { pose proof Le as L. apply Rabs_le_between in L. fold s1 s2 in L. nra. }
      assert (QQ : (s2 * c1 - c2 * s1) ^ 2 + (c2 * c1 + s2 * s1) ^ 2 = 1). { pose proof (sc1 U1) as A. pose proof (sc1 U2) as B. fold s1 c1 in A. fold s2 c2 in B. transitivity ((s1 * s1 + c1 * c1) * (s2 * s2 + c2 * c2)); [ring|]. rewrite A, B. ring. }
      assert (CB : 866 / 1000 <= c2 * c1 + s2 * s1) by (clear - QQ Q0 K1 K2; apply Rnot_lt_le; intros X; nra).
      assert (Y : 1 - cos o <= o ^ 2 / 2) by (apply one_minus_cos). 
      assert (Y0 : 0 <= 1 - cos o) by (pose proof (COS_bound o); lra).
      assert (W : c1 * c2 * (1 - cos o) <= (c2 * o) ^ 2 / 2). { apply Rle_trans with (c2 * c2 * (o ^ 2 / 2)); [|right; field]. apply Rmult_le_compat; [apply Rmult_le_pos; lra|exact Y0|apply Rmult_le_compat_r; lra|exact Y]. }
      assert (W2 : c2 * o <= 506 / 1000). { assert (c2 * o * r < / 2) by (rewrite Rmult_assoc, OR; exact K3). assert (c2 * o * (1 - f) <= c2 * o * r) by (apply Rmult_le_compat_l; [apply Rmult_le_pos; lra|lra]). assert (c2 * o * f <= c2 * o * (1 / 100)) by (apply Rmult_le_compat_l; [apply Rmult_le_pos; lra|lra]). lra. }
      assert (W0 : 0 <= c2 * o) by (apply Rmult_le_pos; lra). clear - W W2 W0 CB. nra. }
    destruct (sg_cs U1 U2 o) as (_ & SR & _). fold sig in SR. pose proof PI_RGT_0 as PP.
    assert (TS : sig o * (73 / 100) <= S o).
    { assert (SH2 : sig o <= PI / 2) by (apply Rnot_lt_le; intros X; pose proof (cos_le_0 (sig o) ltac:(lra) ltac:(lra)); lra).
      apply Rle_trans with (sig o * cos (sig o)); [apply Rmult_le_compat_l; lra|]. apply x_cos_le_sin. lra. }
    exists o. destruct (fin o Ro ltac:(left; lra)) as [F1' F2]. fold r o. cbv beta iota zeta. rewrite F1'. cbv beta iota. rewrite F2. split; [reflexivity|]. split; [rewrite Rabs_right; lra|].
    destruct (rate o Ro) as (A & B & _). pose proof (aS_pos U1 U2 V1 V2 o Ro) as P. fold S in P.
    assert (HB : Rabs (h o) <= 15 / 1000 * s).
    { apply Rle_trans with (1 := A). assert (G : sig o / S o <= 100 / 73) by (apply Rmult_le_reg_r with (S o); [lra|]; replace (sig o / S o * S o) with (sig o) by (field; lra); lra).
      assert (G0 : 0 <= sig o / S o) by (apply Rmult_le_pos; [apply sig_nn|left; now apply Rinv_0_lt_compat]).
      assert (f * (sig o / S o) <= 1 / 100 * (100 / 73)) by (apply Rmult_le_compat; lra). assert (0 <= f * (sig o / S o)) by (apply Rmult_le_pos; lra). assert (SN : 0 <= sin o) by lra.
      assert (f * (sig o / S o) * sin o <= 1 / 100 * (100 / 73) * (108 / 100 * s)) by (apply Rmult_le_compat; lra). lra. }
    apply Rabs_le_between in HB. apply Rabs_le. lra.
  - exists lam. assert (OK : 0 <= cos (sig lam) \/ 6 * f * PI * c1 ^ 2 <= S lam).
    { destruct (Rle_dec 0 (cos (sig lam))) as [|X]; [now left|right]. destruct (sg_cs U1 U2 lam) as (_ & SR & _). fold sig in SR. pose proof PI_RGT_0 as PP.
      assert (SH2 : PI / 2 <= sig lam) by (apply Rnot_lt_le; intros Y; apply X; apply cos_ge_0; lra). pose proof Hsig as HS. change (f * sig lam <= S lam / 50) in HS.
      assert (f * (PI / 2) <= f * sig lam) by (apply Rmult_le_compat_l; lra). assert (c1 ^ 2 <= 1) by nra. assert (0 <= f * PI) by (apply Rmult_le_pos; lra). replace (6 * f * PI * c1 ^ 2) with (6 * ((f * PI) * c1 ^ 2)) by ring. assert ((f * PI) * c1 ^ 2 <= (f * PI) * 1) by (apply Rmult_le_compat_l; lra). lra. }
    destruct (fin lam Hl OK) as [F1' F2]. cbv beta iota zeta. rewrite F1'. cbv beta iota. rewrite F2. split; [reflexivity|]. rewrite Rminus_diag_eq, Rabs_R0, Rplus_0_l by reflexivity. split; [lra|].
    destruct (rate lam Hl) as (A & _). apply Rle_trans with (1 := A). pose proof Hsig as HS. change (f * sig lam <= S lam / 50) in HS. pose proof (aS_pos U1 U2 V1 V2 lam Hl) as P. fold S in P.
    assert (G : f * (sig lam / S lam) <= 1 / 50) by (apply Rmult_le_reg_r with (S lam); [lra|]; replace (f * (sig lam / S lam) * S lam) with (f * sig lam) by (field; lra); lra). fold s. nra.
Qed.
Theorem search_converges x0 y z t last : let '(sa, ca) := InverseStart g s1 c1 dn1 s2 c2 dn2 lam (sin lam) (cos lam) in
  exists sa' ca', newton_loop k_maxit2 ev (mkNstate sa ca x0 y z t false) last = (sa', ca', ev sa' ca' true) /\ Rabs (l_lam12 (ev sa' ca' true)) < 8 * k_tol0.
Proof. destruct lam_converges as (o & -> & A & B). now apply (converges_from o). Qed.
End Conv.
(** The search of the canonical problem. *)
Lemma reduces_lat f phi U : 0 < cos phi -> 0 < cos U -> reduces f phi U -> cos U = cos (M_vincenty.reduced_lat f phi) /\ sin U = sin (M_vincenty.reduced_lat f phi).
Proof.
  intros P C (h & Hh & A & B). assert (E : M_vincenty.reduced_lat f phi = atan (sin U / cos U)).
  { unfold M_vincenty.reduced_lat. f_equal. unfold tan. apply Rmult_eq_reg_r with (cos phi * (cos U * h)); [|apply Rmult_integral_contrapositive; split; [lra|apply Rmult_integral_contrapositive; split; lra]].
    transitivity ((1 - f) * sin phi * (cos U * h)); [field; lra|]. transitivity (sin U * h * cos phi); [|field; lra]. rewrite A, B. ring. }
  rewrite E. assert (H := atan2_pos (sin U) (cos U) C). rewrite <- H. destruct (unit_polar (sin U) (cos U)) as [-> ->]; [pose proof (sc1 U); lra|]. split; reflexivity.
Qed.
Theorem canon_settles g A B L : oblate g -> gd_f g <= 1 / 100 -> -90 < A < 0 -> Rabs B <= - A -> k_tiny <= cos (radians A) -> 0 < radians L < PI ->
  (let sig := sg (M_vincenty.reduced_lat (gd_f g) (radians A)) (M_vincenty.reduced_lat (gd_f g) (radians B)) (radians L) in gd_f g * sig <= sin sig / 50) ->
  gd_f g * radians L <= sin (radians L) / 50 -> settles g A B L (8 * k_tol0).
Proof.
  intros O Hf HA HB T HL Hs Hl. cbv zeta in Hs. destruct (canon_setup g A B O HA HB T) as (U1 & U2 & E1 & E2 & C1 & C2 & R1 & R2 & N1 & Le & Fx).
  assert (PA : 0 < cos (radians A)) by (pose proof tiny_pos; lra).
  assert (PB : 0 < cos (radians B)). { apply Rabs_le_between in HB. pose proof PI_RGT_0. assert (0 < (B + 90) * PI) by (apply Rmult_lt_0_compat; lra). assert (0 < (90 - B) * PI) by (apply Rmult_lt_0_compat; lra). apply cos_gt_0; unfold radians; lra. }
  destruct (reduces_lat _ _ _ PA C1 R1) as [K1 K2]. destruct (reduces_lat _ _ _ PB C2 R2) as [K3 K4].
  set (u1 := M_vincenty.reduced_lat (gd_f g) (radians A)) in *. set (u2 := M_vincenty.reduced_lat (gd_f g) (radians B)) in *.
  assert (V1 : - PI / 2 < u1 < PI / 2) by (unfold u1, M_vincenty.reduced_lat; pose proof (atan_bound ((1 - gd_f g) * tan (radians A))); lra).
  assert (V2 : - PI / 2 < u2 < PI / 2) by (unfold u2, M_vincenty.reduced_lat; pose proof (atan_bound ((1 - gd_f g) * tan (radians B))); lra).
  rewrite K2 in N1. rewrite K2, K4 in Le.
  pose proof (search_converges g u1 u2 (radians L) O Hf V1 V2 N1 Le HL Hs Hl k_tiny 1.0 k_tiny (-1.0) no_lambda) as SC.
  unfold settles, search. rewrite E1, E2. cbv zeta. rewrite Fx. rewrite K1, K2, K3, K4.
  match goal with |- context [InverseStart ?a ?b ?c ?d ?e ?f ?h ?i ?j ?k] => destruct (InverseStart a b c d e f h i j k) as [s0 c0] end.
  destruct SC as (sa & ca & EQ & B0).
  assert (EV : equation g A B L = fun sa ca dp => Lambda12 g (sin u1) (cos u1) (sqrt (1.0 + gd_ep2 g * sin u1 ^ 2)) (sin u2) (cos u2) (sqrt (1.0 + gd_ep2 g * sin u2 ^ 2)) sa ca (sin (radians L)) (cos (radians L)) dp).
  { unfold equation. rewrite E1, E2, Fx, K1, K2, K3, K4. reflexivity. }
  rewrite EV. rewrite EQ. split; [exists true; reflexivity|lra].
Qed.
