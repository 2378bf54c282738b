(** First-order expansions along an arbitrary family of points, and the differential of
    the length of the geodesic from a fixed point. *)
From Coq Require Import Reals Ratan Lra Lia Psatz.
From Coquelicot Require Import Coquelicot.
From Verif Require Import L_PyMath L_short1.
From Verif Require L_vincenty2.
Open Scope R_scope.

Section Little.
Context {A : Type}.
Variable N : A -> R.
Hypothesis N0 : forall u, 0 <= N u.
Definition near (P : A -> Prop) : Prop := exists del, 0 < del /\ forall u, N u < del -> P u.
Definition small (l : A -> R) : Prop := forall eps, 0 < eps -> near (fun u => Rabs (l u) <= eps * N u).
Definition big (l : A -> R) : Prop := exists C, 0 <= C /\ near (fun u => Rabs (l u) <= C * N u).
(** [F] is [F0 + l + o(N)]. *)
Definition lin (F : A -> R) (F0 : R) (l : A -> R) : Prop := big l /\ small (fun u => F u - F0 - l u).

Lemma near_and P Q : near P -> near Q -> near (fun u => P u /\ Q u).
Proof. intros (a & Ha & A1) (b & Hb & B1). exists (Rmin a b). split; [now apply Rmin_glb_lt|]. intros u Hu. pose proof (Rmin_l a b). pose proof (Rmin_r a b). split; [apply A1|apply B1]; lra. Qed.
Lemma near_imp (P Q : A -> Prop) : (forall u, P u -> Q u) -> near P -> near Q.
Proof. intros H (a & Ha & A1). exists a. split; [exact Ha|]. intros u Hu. apply H, A1, Hu. Qed.
Lemma near_all (P : A -> Prop) : (forall u, P u) -> near P.
Proof. intros H. exists 1. split; [lra|]. intros u _. apply H. Qed.
Lemma near_lt r : 0 < r -> near (fun u => N u < r).
Proof. intros H. exists r. split; [exact H|]. auto. Qed.
Lemma small_big l : small l -> big l.
Proof. intros H. exists 1. split; [lra|]. apply H. lra. Qed.
Lemma big_add l l' : big l -> big l' -> big (fun u => l u + l' u).
Proof. intros (C & HC & A1) (D & HD & B1). exists (C + D). split; [lra|]. generalize (near_and _ _ A1 B1). apply near_imp. intros u [H1 H2]. eapply Rle_trans; [apply Rabs_triang|]. lra. Qed.
Lemma big_scal c l : big l -> big (fun u => c * l u).
Proof. intros (C & HC & A1). exists (Rabs c * C). split; [apply Rmult_le_pos; [apply Rabs_pos|exact HC]|]. revert A1. apply near_imp. intros u H. rewrite Rabs_mult, Rmult_assoc. apply Rmult_le_compat_l; [apply Rabs_pos|exact H]. Qed.
Lemma small_add l l' : small l -> small l' -> small (fun u => l u + l' u).
Proof.
  intros H H' eps He. pose proof (near_and _ _ (H (eps / 2) ltac:(lra)) (H' (eps / 2) ltac:(lra))) as K. revert K. apply near_imp. intros u [X Y]. eapply Rle_trans; [apply Rabs_triang|]. lra.
Qed.
Lemma small_scal c l : small l -> small (fun u => c * l u).
Proof.
  intros H eps He. assert (K : 0 < Rabs c + 1) by (pose proof (Rabs_pos c); lra). generalize (H (eps / (Rabs c + 1)) ltac:(apply Rdiv_lt_0_compat; lra)). apply near_imp. intros u X. rewrite Rabs_mult. pose proof (Rabs_pos c). pose proof (Rabs_pos (l u)). pose proof (N0 u).
  apply Rle_trans with ((Rabs c + 1) * (eps / (Rabs c + 1) * N u)); [apply Rmult_le_compat; lra|]. right. field. lra.
Qed.
Lemma small_ext l l' : (forall u, l u = l' u) -> small l -> small l'.
Proof. intros E H eps He. generalize (H eps He). apply near_imp. intros u. now rewrite E. Qed.
Lemma small_ext_near l l' : near (fun u => l u = l' u) -> small l -> small l'.
Proof. intros E H eps He. generalize (near_and _ _ E (H eps He)). apply near_imp. intros u [X Y]. now rewrite <- X. Qed.
Lemma big_ext l l' : (forall u, l u = l' u) -> big l -> big l'.
Proof. intros E (C & HC & H). exists C. split; [exact HC|]. revert H. apply near_imp. intros u. now rewrite E. Qed.
Lemma small_0 : small (fun _ => 0).
Proof. intros eps He. apply near_all. intros u. rewrite Rabs_R0. pose proof (N0 u). nra. Qed.
(** products of two first-order quantities *)
Lemma small_mul l l' : big l -> big l' -> small (fun u => l u * l' u).
Proof.
  intros (C & HC & A1) (D & HD & B1) eps He. assert (K : 0 < C * D + 1) by nra. generalize (near_and _ _ (near_and _ _ A1 B1) (near_lt (eps / (C * D + 1)) ltac:(apply Rdiv_lt_0_compat; lra))). apply near_imp.
  intros u [[X Y] Z]. rewrite Rabs_mult. pose proof (N0 u) as Nu. apply Rle_trans with (C * N u * (D * N u)); [apply Rmult_le_compat; try apply Rabs_pos; assumption|].
  replace (C * N u * (D * N u)) with (C * D * N u * N u) by ring. apply Rmult_le_compat_r; [exact Nu|]. apply Rle_trans with ((C * D + 1) * (eps / (C * D + 1))); [|right; field; lra]. apply Rmult_le_compat; nra.
Qed.
(** a first-order quantity is eventually below any bound *)
Lemma big_near l r : big l -> 0 < r -> near (fun u => Rabs (l u) < r).
Proof.
  intros (C & HC & A1) Hr. generalize (near_and _ _ A1 (near_lt (r / (C + 1)) ltac:(apply Rdiv_lt_0_compat; lra))). apply near_imp. intros u [X Y]. pose proof (N0 u).
  apply Rle_lt_trans with (1 := X). apply Rle_lt_trans with ((C + 1) * N u); [nra|]. apply Rlt_le_trans with ((C + 1) * (r / (C + 1))); [apply Rmult_lt_compat_l; lra|right; field; lra].
Qed.
Lemma lin_big F F0 l : lin F F0 l -> big (fun u => F u - F0).
Proof. intros [B S]. apply (big_ext (fun u => l u + (F u - F0 - l u))); [intros; ring|]. apply big_add; [exact B|now apply small_big]. Qed.
Lemma lin_exact F F0 : big (fun u => F u - F0) -> lin F F0 (fun u => F u - F0).
Proof. intros B. split; [exact B|]. apply (small_ext (fun _ => 0)); [intros; ring|apply small_0]. Qed.
Lemma lin_const c : lin (fun _ => c) c (fun _ => 0).
Proof. split; [apply small_big, small_0|apply (small_ext (fun _ => 0)); [intros; ring|apply small_0]]. Qed.
Lemma lin_add F F0 l G G0 m : lin F F0 l -> lin G G0 m -> lin (fun u => F u + G u) (F0 + G0) (fun u => l u + m u).
Proof. intros [B S] [B' S']. split; [now apply big_add|]. apply (small_ext (fun u => (F u - F0 - l u) + (G u - G0 - m u))); [intros; ring|now apply small_add]. Qed.
Lemma lin_scal c F F0 l : lin F F0 l -> lin (fun u => c * F u) (c * F0) (fun u => c * l u).
Proof. intros [B S]. split; [now apply big_scal|]. apply (small_ext (fun u => c * (F u - F0 - l u))); [intros; ring|now apply small_scal]. Qed.
Lemma lin_mul F F0 l G G0 m : lin F F0 l -> lin G G0 m -> lin (fun u => F u * G u) (F0 * G0) (fun u => F0 * m u + G0 * l u).
Proof.
  intros L L'. pose proof L as [B S]. pose proof L' as [B' S']. split; [apply big_add; now apply big_scal|].
  apply (small_ext (fun u => (F u - F0) * (G u - G0) + (F0 * (G u - G0 - m u) + G0 * (F u - F0 - l u)))); [intros; ring|]. apply small_add; [apply small_mul; eapply lin_big; eassumption|apply small_add; now apply small_scal].
Qed.
Lemma lin_ext F F' F0 F0' l l' : near (fun u => F u = F' u) -> F0 = F0' -> (forall u, l u = l' u) -> lin F F0 l -> lin F' F0' l'.
Proof.
  intros E -> El [B S]. split; [now apply (big_ext l)|]. apply (small_ext_near (fun u => F u - F0' - l u)); [|exact S]. revert E. apply near_imp. intros u H. now rewrite H, El.
Qed.
Lemma lin_adj F F0 l l' : lin F F0 l -> small (fun u => l u - l' u) -> lin F F0 l'.
Proof.
  intros [B S] D. split; [apply (big_ext (fun u => l u + -1 * (l u - l' u))); [intros; ring|]; apply big_add; [exact B|apply big_scal; now apply small_big]|].
  apply (small_ext (fun u => (F u - F0 - l u) + (l u - l' u))); [intros; ring|now apply small_add].
Qed.
Lemma lin_uniq F F0 l l' : lin F F0 l -> lin F F0 l' -> small (fun u => l u - l' u).
Proof. intros [_ S] [_ S']. apply (small_ext (fun u => (F u - F0 - l' u) + -1 * (F u - F0 - l u))); [intros; ring|]. apply small_add; [exact S'|now apply small_scal]. Qed.
Lemma lin_comp1 (f : R -> R) f' F F0 l : is_derive f F0 f' -> lin F F0 l -> lin (fun u => f (F u)) (f F0) (fun u => f' * l u).
Proof.
  intros D L. pose proof L as [B S]. pose proof (lin_big _ _ _ L) as (C & HC & A1). split; [now apply big_scal|]. intros eps He.
  apply is_derive_Reals in D. destruct (D (eps / 2 / (C + 1)) ltac:(repeat apply Rdiv_lt_0_compat; lra)) as [del Hd].
  generalize (near_and _ _ (near_and _ _ A1 (big_near _ del (lin_big _ _ _ L) (cond_pos del))) (small_scal f' _ S (eps / 2) ltac:(lra))). apply near_imp. intros u [[X Y] Z].
  set (h := F u - F0) in *. assert (K : Rabs (f (F u) - f F0 - f' * h) <= eps / 2 * N u).
  { destruct (Req_dec h 0) as [Z0|NZ]. { replace (F u) with F0 by (unfold h in Z0; lra). rewrite Z0. replace (f F0 - f F0 - f' * 0) with 0 by ring. rewrite Rabs_R0. pose proof (N0 u). nra. }
    specialize (Hd h NZ Y). replace (F0 + h) with (F u) in Hd by (unfold h; ring). replace (f (F u) - f F0 - f' * h) with (((f (F u) - f F0) / h - f') * h) by (field; exact NZ). rewrite Rabs_mult. pose proof (Rabs_pos h).
    apply Rle_trans with (eps / 2 / (C + 1) * (C * N u)); [apply Rmult_le_compat; try apply Rabs_pos; lra|]. pose proof (N0 u). apply Rle_trans with (eps / 2 / (C + 1) * ((C + 1) * N u)); [apply Rmult_le_compat_l; [left; repeat apply Rdiv_lt_0_compat; lra|nra]|right; field; lra]. }
  replace (f (F u) - f F0 - f' * l u) with ((f (F u) - f F0 - f' * h) + f' * (h - l u)) by ring. eapply Rle_trans; [apply Rabs_triang|]. lra.
Qed.
Lemma lin_comp2 (f : R -> R -> R) a b F F0 l G G0 m : diff2 f F0 G0 a b -> lin F F0 l -> lin G G0 m -> lin (fun u => f (F u) (G u)) (f F0 G0) (fun u => a * l u + b * m u).
Proof.
  intros D L L'. pose proof L as [B S]. pose proof L' as [B' S']. pose proof (lin_big _ _ _ L) as (C & HC & A1). pose proof (lin_big _ _ _ L') as (C' & HC' & A1'). split; [apply big_add; now apply big_scal|]. intros eps He.
  destruct (D (eps / 2 / (C + C' + 1)) ltac:(repeat apply Rdiv_lt_0_compat; lra)) as (del & Hp & Hd).
  generalize (near_and _ _ (near_and _ _ (near_and _ _ A1 (big_near _ del (lin_big _ _ _ L) Hp)) (near_and _ _ A1' (big_near _ del (lin_big _ _ _ L') Hp))) (small_add _ _ (small_scal a _ S) (small_scal b _ S') (eps / 2) ltac:(lra))). apply near_imp. intros u [[[X Y] [X' Y']] Z].
  specialize (Hd (F u) (G u) Y Y'). pose proof (N0 u).
  replace (f (F u) (G u) - f F0 G0 - (a * l u + b * m u)) with ((f (F u) (G u) - f F0 G0 - a * (F u - F0) - b * (G u - G0)) + (a * (F u - F0 - l u) + b * (G u - G0 - m u))) by ring.
  eapply Rle_trans; [apply Rabs_triang|]. apply Rle_trans with (eps / 2 * N u + eps / 2 * N u); [apply Rplus_le_compat; [|exact Z]|lra]. apply Rle_trans with (1 := Hd).
  apply Rle_trans with (eps / 2 / (C + C' + 1) * ((C + C' + 1) * N u)); [apply Rmult_le_compat_l; [left; repeat apply Rdiv_lt_0_compat; lra|nra]|right; field; lra].
Qed.

(** ** Points of the auxiliary sphere seen from a fixed one *)
Variables (e2 x1 y1 z1 : R).
Hypothesis He : 0 <= e2 <= 2 / 100.
Hypothesis P1 : x1 ^ 2 + y1 ^ 2 + z1 ^ 2 = 1.
Definition cq (X Y Z : R) : R := x1 * X + y1 * Y + z1 * Z.
Definition sq (X Y Z : R) : R := acos (cq X Y Z).
Definition dq (X Y Z : R) : R := (Z - cq X Y Z * z1) * / sin (sq X Y Z).
Definition pq (X Y Z : R) : R := (x1 * Y - y1 * X) * / sin (sq X Y Z).
(** length (in units of the equatorial radius) and longitude correction *)
Definition Sq (X Y Z : R) : R := Sf e2 z1 (sq X Y Z) (dq X Y Z).
Definition Kq (X Y Z : R) : R := pq X Y Z * Jf e2 z1 (sq X Y Z) (dq X Y Z).
Definition onS (X Y Z : R) : Prop := X ^ 2 + Y ^ 2 + Z ^ 2 = 1.
Lemma cq_abs X Y Z : onS X Y Z -> -1 <= cq X Y Z <= 1.
Proof.
  intros H. unfold onS in H. unfold cq. assert (K : (x1 * X + y1 * Y + z1 * Z) ^ 2 <= 1).
  { pose proof (pow2_ge_0 (x1 * Y - y1 * X)). pose proof (pow2_ge_0 (x1 * Z - z1 * X)). pose proof (pow2_ge_0 (y1 * Z - z1 * Y)).
    assert (E : (x1 * X + y1 * Y + z1 * Z) ^ 2 + (x1 * Y - y1 * X) ^ 2 + (x1 * Z - z1 * X) ^ 2 + (y1 * Z - z1 * Y) ^ 2 = (x1 ^ 2 + y1 ^ 2 + z1 ^ 2) * (X ^ 2 + Y ^ 2 + Z ^ 2)) by ring. rewrite P1, H in E. lra. }
  nra.
Qed.
Lemma pd_id X Y Z : onS X Y Z -> -1 < cq X Y Z < 1 -> pq X Y Z ^ 2 + dq X Y Z ^ 2 = 1 - z1 ^ 2 /\ 0 < sin (sq X Y Z) /\ cos (sq X Y Z) = cq X Y Z /\ zt z1 (dq X Y Z) (sq X Y Z) = Z.
Proof.
  intros H C. assert (CA : cos (sq X Y Z) = cq X Y Z) by (unfold sq; apply cos_acos; lra). assert (SP : 0 < sin (sq X Y Z)) by (unfold sq; rewrite sin_acos by lra; apply sqrt_lt_R0; unfold Rsqr; nra).
  pose proof (sc1 (sq X Y Z)) as SC. rewrite CA in SC. unfold zt, pq, dq. rewrite CA. set (s := sin (sq X Y Z)) in *. unfold onS in H. split; [|split; [exact SP|split; [reflexivity|field; lra]]].
  rewrite !Rpow_mult_distr. assert (I : (/ s) ^ 2 * (s * s) = 1) by (field; lra). apply Rmult_eq_reg_r with (s * s); [|nra]. 
  replace (((x1 * Y - y1 * X) ^ 2 * (/ s) ^ 2 + (Z - cq X Y Z * z1) ^ 2 * (/ s) ^ 2) * (s * s)) with (((x1 * Y - y1 * X) ^ 2 + (Z - cq X Y Z * z1) ^ 2) * ((/ s) ^ 2 * (s * s))) by ring. rewrite I, Rmult_1_r.
  replace (s * s) with (1 - cq X Y Z * cq X Y Z) by lra.
  assert (L : (x1 * Y - y1 * X) ^ 2 + (x1 * X + y1 * Y) ^ 2 = (x1 ^ 2 + y1 ^ 2) * (X ^ 2 + Y ^ 2)) by ring. replace (x1 * X + y1 * Y) with (cq X Y Z - z1 * Z) in L by (unfold cq; ring). replace (x1 ^ 2 + y1 ^ 2) with (1 - z1 ^ 2) in L by lra. replace (X ^ 2 + Y ^ 2) with (1 - Z ^ 2) in L by lra.
  set (c := cq X Y Z) in *. replace ((x1 * Y - y1 * X) ^ 2) with ((1 - z1 ^ 2) * (1 - Z ^ 2) - (c - z1 * Z) ^ 2) by lra. ring.
Qed.
Lemma acos_derive c : -1 < c < 1 -> is_derive acos c (- / sin (acos c)).
Proof.
  intros H. apply is_derive_Reals. pose proof (derive_pt_acos c H) as E. destruct (derivable_pt_acos c H) as [l Hl]. cbn in E. subst l. replace (- / sin (acos c)) with (-1 / sqrt (1 - c²)); [exact Hl|]. rewrite sin_acos by lra. unfold Rdiv. ring.
Qed.
Section Expand.
Variables (X Y Z : A -> R) (X0 Y0 Z0 : R) (lX lY lZ : A -> R).
Hypothesis HX : lin X X0 lX.
Hypothesis HY : lin Y Y0 lY.
Hypothesis HZ : lin Z Z0 lZ.
Hypothesis Hu : forall u, onS (X u) (Y u) (Z u).
Hypothesis H0 : onS X0 Y0 Z0.
Hypothesis HC : -1 < cq X0 Y0 Z0 < 1.
Let c0 := cq X0 Y0 Z0. Let s0 := sin (sq X0 Y0 Z0). Let d0 := dq X0 Y0 Z0. Let p0 := pq X0 Y0 Z0.
Let f0 := pd_id X0 Y0 Z0 H0 HC.
Definition lc (u : A) : R := x1 * lX u + y1 * lY u + z1 * lZ u.
Definition ls (u : A) : R := - / sin (sq X0 Y0 Z0) * lc u.
Definition Dz : R := - sin (sq X0 Y0 Z0) * z1 + cq X0 Y0 Z0 * dq X0 Y0 Z0.
Definition ld (u : A) : R := / sin (sq X0 Y0 Z0) * (lZ u - Dz * ls u).
Definition lp (u : A) : R := / sin (sq X0 Y0 Z0) * (x1 * lY u - y1 * lX u - pq X0 Y0 Z0 * cq X0 Y0 Z0 * ls u).
Lemma lin_c : lin (fun u => cq (X u) (Y u) (Z u)) c0 lc.
Proof. unfold cq, lc. pose proof (lin_add _ _ _ _ _ _ (lin_add _ _ _ _ _ _ (lin_scal x1 _ _ _ HX) (lin_scal y1 _ _ _ HY)) (lin_scal z1 _ _ _ HZ)) as L. exact L. Qed.
Lemma lin_s : lin (fun u => sq (X u) (Y u) (Z u)) (sq X0 Y0 Z0) ls.
Proof. unfold sq at 1. pose proof (lin_comp1 acos _ _ _ _ (acos_derive c0 HC) lin_c) as L. exact L. Qed.
Lemma lin_sin : lin (fun u => sin (sq (X u) (Y u) (Z u))) s0 (fun u => c0 * ls u).
Proof. destruct f0 as (_ & _ & C & _). unfold c0. rewrite <- C. apply (lin_comp1 sin); [apply is_derive_Reals, derivable_pt_lim_sin|apply lin_s]. Qed.
Lemma lin_isin : lin (fun u => / sin (sq (X u) (Y u) (Z u))) (/ s0) (fun u => - (/ s0) ^ 2 * (c0 * ls u)).
Proof.
  destruct f0 as (_ & S & _). fold s0 in S. apply (lin_comp1 Rinv); [|apply lin_sin]. replace (- (/ s0) ^ 2) with (- 1 / s0 ^ 2) by (field; lra).
  apply (is_derive_inv (fun x => x) s0 1 (is_derive_id s0)). lra.
Qed.
Lemma lin_d : lin (fun u => dq (X u) (Y u) (Z u)) d0 ld.
Proof.
  destruct f0 as (_ & S & _). fold s0 in S. pose proof (lin_mul _ _ _ _ _ _ (lin_add _ _ _ _ _ _ HZ (lin_scal (- z1) _ _ _ lin_c)) lin_isin) as L. revert L. apply lin_ext.
  - apply near_all. intros u. unfold dq. ring.
  - unfold d0, dq, c0, s0. ring.
  - intros u. unfold ld, Dz. fold s0 c0. assert (DD : dq X0 Y0 Z0 = (Z0 - c0 * z1) * / s0) by reflexivity. rewrite DD. unfold ls. fold s0. field. lra.
Qed.
Lemma lin_p : lin (fun u => pq (X u) (Y u) (Z u)) p0 lp.
Proof.
  destruct f0 as (_ & S & _). fold s0 in S. pose proof (lin_mul _ _ _ _ _ _ (lin_add _ _ _ _ _ _ (lin_scal x1 _ _ _ HY) (lin_scal (- y1) _ _ _ HX)) lin_isin) as L. revert L. apply lin_ext.
  - apply near_all. intros u. unfold pq. ring.
  - unfold p0, pq, s0. ring.
  - intros u. unfold lp. fold s0 c0. assert (DD : pq X0 Y0 Z0 = (x1 * Y0 - y1 * X0) * / s0) by reflexivity. rewrite DD. field. lra.
Qed.
Lemma near_c : near (fun u => -1 < cq (X u) (Y u) (Z u) < 1).
Proof.
  assert (R : 0 < Rmin (1 - c0) (c0 + 1)) by (apply Rmin_glb_lt; unfold c0; lra). generalize (big_near _ _ (lin_big _ _ _ lin_c) R). apply near_imp. intros u H. pose proof (Rmin_l (1 - c0) (c0 + 1)). pose proof (Rmin_r (1 - c0) (c0 + 1)). apply Rabs_def2 in H. lra.
Qed.
Lemma pd_small : small (fun u => p0 * lp u + d0 * ld u).
Proof.
  pose proof (lin_add _ _ _ _ _ _ (lin_mul _ _ _ _ _ _ lin_p lin_p) (lin_mul _ _ _ _ _ _ lin_d lin_d)) as L.
  assert (L' : lin (fun u => pq (X u) (Y u) (Z u) * pq (X u) (Y u) (Z u) + dq (X u) (Y u) (Z u) * dq (X u) (Y u) (Z u)) (p0 * p0 + d0 * d0) (fun _ => 0)).
  { apply (lin_ext (fun _ => 1 - z1 ^ 2) _ (1 - z1 ^ 2) _ (fun _ => 0) (fun _ => 0)).
    - generalize near_c. apply near_imp. intros u H. destruct (pd_id _ _ _ (Hu u) H) as [E _]. lra.
    - destruct f0 as [E _]. unfold p0, d0. lra.
    - reflexivity.
    - apply lin_const. }
  pose proof (small_scal (/ 2) _ (lin_uniq _ _ _ _ L L')) as S. revert S. apply small_ext. intros u. field.
Qed.
Lemma lin_J : lin (fun u => Jf e2 z1 (sq (X u) (Y u) (Z u)) (dq (X u) (Y u) (Z u))) (Jf e2 z1 (sq X0 Y0 Z0) d0) (fun u => gg e2 Z0 * ls u + Jd e2 z1 (sq X0 Y0 Z0) d0 * ld u).
Proof. destruct f0 as (_ & _ & _ & E). pose proof (Jf_diff e2 He z1 (sq X0 Y0 Z0) d0) as D. unfold d0 in *. rewrite E in D. exact (lin_comp2 _ _ _ _ _ _ _ _ _ D lin_s lin_d). Qed.
Lemma lin_K : lin (fun u => Kq (X u) (Y u) (Z u)) (Kq X0 Y0 Z0) (fun u => p0 * (gg e2 Z0 * ls u + Jd e2 z1 (sq X0 Y0 Z0) d0 * ld u) + Jf e2 z1 (sq X0 Y0 Z0) d0 * lp u).
Proof. exact (lin_mul _ _ _ _ _ _ lin_p lin_J). Qed.
Lemma lin_S : lin (fun u => Sq (X u) (Y u) (Z u)) (Sq X0 Y0 Z0) (fun u => ww e2 Z0 * ls u + Sd e2 z1 (sq X0 Y0 Z0) d0 * ld u).
Proof. destruct f0 as (_ & _ & _ & E). pose proof (Sf_diff e2 He z1 (sq X0 Y0 Z0) d0) as D. unfold d0 in *. rewrite E in D. exact (lin_comp2 _ _ _ _ _ _ _ _ _ D lin_s lin_d). Qed.
(** First variation of the length. *)
Theorem lin_SK : lin (fun u => Sq (X u) (Y u) (Z u) + p0 * Kq (X u) (Y u) (Z u)) (Sq X0 Y0 Z0 + p0 * Kq X0 Y0 Z0) (fun u => ls u - gg e2 Z0 * Dz * lZ u).
Proof.
  apply (lin_adj _ _ _ _ (lin_add _ _ _ _ _ _ lin_S (lin_scal p0 _ _ _ lin_K))).
  pose proof (small_scal (Jf e2 z1 (sq X0 Y0 Z0) d0) _ pd_small) as S. revert S. apply small_ext. intros u.
  destruct f0 as (E1 & E2 & E3 & E4). fold p0 d0 in E1. fold s0 in E2. fold d0 in E4. rewrite (variation e2 He z1 (sq X0 Y0 Z0) d0), E4. rewrite E3. fold s0 c0.
  assert (DZ : Dz = - s0 * z1 + c0 * d0) by reflexivity. rewrite <- DZ. assert (LD : s0 * ld u = lZ u - Dz * ls u) by (unfold ld; fold s0; field; lra).
  pose proof (gg_id e2 He Z0) as G. assert (PZ : p0 ^ 2 + Dz ^ 2 = 1 - Z0 ^ 2).
  { rewrite <- E4. unfold zt. rewrite E3. fold s0 c0. pose proof (sc1 (sq X0 Y0 Z0)) as SC. rewrite E3 in SC. fold s0 c0 in SC. rewrite DZ. replace (p0 ^ 2) with (1 - z1 ^ 2 - d0 ^ 2) by lra. assert (SC' : s0 * s0 = 1 - c0 * c0) by lra.
    replace (1 - z1 ^ 2 - d0 ^ 2 + (- s0 * z1 + c0 * d0) ^ 2) with (1 - z1 ^ 2 - d0 ^ 2 + (s0 * s0) * z1 ^ 2 - 2 * s0 * z1 * c0 * d0 + c0 ^ 2 * d0 ^ 2) by ring. replace (1 - (c0 * z1 + s0 * d0) ^ 2) with (1 - c0 ^ 2 * z1 ^ 2 - 2 * s0 * z1 * c0 * d0 - (s0 * s0) * d0 ^ 2) by ring. rewrite SC'. ring. }
  set (J := Jf e2 z1 (sq X0 Y0 Z0) d0). set (H := Jd e2 z1 (sq X0 Y0 Z0) d0). set (g := gg e2 Z0) in *. set (w := ww e2 Z0) in *. replace (1 - z1 ^ 2 - d0 ^ 2) with (p0 ^ 2) by lra.
  transitivity (w * ls u + (- g * Dz * s0 + d0 * J - p0 ^ 2 * H) * ld u + p0 * (p0 * (g * ls u + H * ld u) + J * lp u) - (ls u - g * Dz * lZ u)); [|reflexivity].
  replace w with (1 - g * (p0 ^ 2 + Dz ^ 2)) by (rewrite PZ; lra). replace (lZ u) with (s0 * ld u + Dz * ls u) by lra. ring.
Qed.
End Expand.
End Little.
