(** No curve on the surface from a given point to the end of a geodesic is shorter than
    the geodesic. *)
From Coq Require Import Reals Ratan Lra Lia Psatz.
From Coquelicot Require Import Coquelicot.
From Verif Require Import PyMath Spec L_PyMath L_short1 L_short2 L_short3 L_short4.
From Verif Require L_vincenty2 L_nvector L_vin3.
Open Scope R_scope.

(** ** A quantity that grows at most at the rate [k] *)
Lemma growth (U : R -> R -> Prop) (L k eta : R) : 0 <= L -> 0 <= k -> 0 <= eta ->
  (forall t, 0 <= t <= L -> exists u, U t u) -> (forall u, U 0 u -> u <= 0) ->
  (forall t u, 0 <= t <= L -> U t u ->
     (exists del, 0 < del /\ forall t' u', 0 <= t' <= L -> U t' u' -> Rabs (t' - t) < del -> Rabs (u' - u) <= k * Rabs (t' - t)) \/
     (u <= 0 /\ exists del, 0 < del /\ forall t' u', 0 <= t' <= L -> U t' u' -> Rabs (t' - t) < del -> u' <= eta)) ->
  forall u, U L u -> u <= k * L + eta.
Proof.
  intros HL Hk He Ex Z0 Loc.
  set (E := fun t => 0 <= t <= L /\ forall t' u', 0 <= t' <= t -> U t' u' -> u' <= k * t' + eta).
  assert (E0 : E 0). { split; [lra|]. intros t' u' Ht Hu. replace t' with 0 in * by lra. pose proof (Z0 u' Hu). lra. }
  destruct (completeness E) as [m [Ub Lb]]. { exists L. intros t [Ht _]. lra. } { exists 0. exact E0. }
  assert (Hm : 0 <= m <= L). { split; [apply Ub, E0|]. apply Lb. intros t [Ht _]. lra. }
  assert (Bel : forall t, t < m -> exists t', E t' /\ t < t'). { intros t Ht. apply Classical_Prop.NNPP. intros X. assert (m <= t); [|lra]. apply Lb. intros t' Ht'. apply Rnot_lt_le. intros Y. apply X. now exists t'. }
  assert (At : forall u, U m u -> u <= k * m + eta).
  { intros u Hu. destruct (Loc m u Hm Hu) as [(del & Hd & H)|(H & _)]; [|pose proof (Rmult_le_pos k m); lra].
    destruct (Rle_dec m 0) as [Y|Y]. { replace m with 0 in * by lra. pose proof (Z0 u Hu). lra. }
    destruct (Bel (Rmax 0 (m - del / 2))) as (t' & [Et1 Et2] & Lt). { apply Rmax_lub_lt; lra. } pose proof (Rmax_l 0 (m - del / 2)). pose proof (Rmax_r 0 (m - del / 2)).
    assert (T' : t' <= m) by (apply Ub; split; assumption). destruct (Ex t' Et1) as (u' & Hu'). assert (AB : Rabs (t' - m) = m - t') by (rewrite Rabs_left1; lra). pose proof (H t' u' Et1 Hu' ltac:(rewrite AB; lra)) as Q. rewrite AB in Q. pose proof (Et2 t' u' ltac:(lra) Hu'). apply Rabs_le_between in Q. lra. }
  assert (Em : E m). { split; [exact Hm|]. intros t' u' Ht Hu. destruct (Req_dec t' m) as [->|N]; [now apply At|]. destruct (Bel t' ltac:(lra)) as (t2 & [_ E2] & L2). apply E2; [lra|exact Hu]. }
  destruct (Req_dec m L) as [->|N]; [exact At|]. exfalso.
  destruct (Ex m Hm) as (u & Hu). pose proof (At u Hu) as Au.
  assert (X : exists del, 0 < del /\ forall t' u', 0 <= t' <= L -> U t' u' -> m < t' -> Rabs (t' - m) < del -> u' <= k * t' + eta).
  { destruct (Loc m u Hm Hu) as [(del & Hd & H)|(H0 & del & Hd & H)]; exists del; (split; [exact Hd|]); intros t' u' Ht Hu' Lt Ld; pose proof (H t' u' Ht Hu' Ld) as Q.
    - rewrite (Rabs_right (t' - m)) in Q by lra. apply Rabs_le_between in Q. lra.
    - pose proof (Rmult_le_pos k t'). lra. }
  destruct X as (del & Hd & H). set (t2 := Rmin L (m + del / 2)). assert (T2 : m < t2 <= L) by (split; [apply Rmin_glb_lt; lra|apply Rmin_l]). assert (T3 : t2 <= m + del / 2) by apply Rmin_r.
  assert (E t2); [|pose proof (Ub t2 ltac:(assumption)); lra]. split; [lra|]. intros t' u' Ht Hu'. destruct (Rle_dec t' m) as [Y|Y]; [apply Em; [lra|exact Hu']|]. apply H; [lra|exact Hu'|lra|]. rewrite Rabs_right; lra.
Qed.
(** ** Chord and arc *)
Lemma angle_chord p q : is_unit p -> is_unit q -> unit_angle p q <= 2 * vdist3 p q.
Proof.
  intros Hp Hq. pose proof (L_nvector.angle_range p q Hp Hq) as R. pose proof (L_nvector.cos_angle p q Hp Hq) as C. set (th := unit_angle p q) in *. pose proof pi_lt as PL.
  assert (D : vdist3 p q ^ 2 = 2 - 2 * cos th). { unfold vdist3, vnorm. rewrite C. clear - Hp Hq. unfold is_unit in *. destruct p as [[x y] z], q as [[x' y'] z']. unfold vdot, vsub in *. cbn [fst snd] in *. rewrite pow2_sqrt; [lra|]. pose proof (Rle_0_sqr (x - x')). pose proof (Rle_0_sqr (y - y')). pose proof (Rle_0_sqr (z - z')). unfold Rsqr in *. lra. }
  pose proof (sin_ge_half (th / 2) ltac:(lra)) as S. assert (C2 : cos th = 1 - 2 * (sin (th / 2) * sin (th / 2))). { replace th with (2 * (th / 2)) at 1 by field. rewrite cos_2a. pose proof (sc1 (th / 2)). lra. }
  assert (V : 0 <= vdist3 p q) by (unfold vdist3, vnorm; apply sqrt_pos). assert (Q : th ^ 2 <= (2 * vdist3 p q) ^ 2); [|nra].
  replace ((2 * vdist3 p q) ^ 2) with (4 * vdist3 p q ^ 2) by ring. rewrite D, C2. assert (th / 4 <= sin (th / 2)) by lra. assert ((th / 4) * (th / 4) <= sin (th / 2) * sin (th / 2)) by (apply Rmult_le_compat; lra). lra.
Qed.
(** Distance on the unit-sphere image, in units of the semi-major axis. *)
Definition dist_e (e2 : R) (p q : vec3) : R := sqrt ((fst (fst p) - fst (fst q)) ^ 2 + (snd (fst p) - snd (fst q)) ^ 2 + (1 - e2) * (snd p - snd q) ^ 2).
Lemma dist_chord e2 p q : 0 <= e2 <= 2 / 100 -> vdist3 p q <= 102 / 100 * dist_e e2 p q.
Proof.
  intros He. destruct p as [[x y] z], q as [[x' y'] z']. unfold vdist3, vnorm, dist_e, vdot, vsub. cbn [fst snd]. pose proof (pow2_ge_0 (x - x')). pose proof (pow2_ge_0 (y - y')). pose proof (pow2_ge_0 (z - z')). pose proof (Rmult_le_pos (1 - e2) ((z - z') ^ 2) ltac:(lra) ltac:(lra)).
  assert (S : 102 / 100 = sqrt ((102 / 100) ^ 2)) by (rewrite sqrt_pow2; lra). rewrite S, <- sqrt_mult by lra. apply sqrt_le_1_alt. assert (e2 * (z - z') ^ 2 <= 2 / 100 * (z - z') ^ 2) by (apply Rmult_le_compat_r; lra). lra.
Qed.
Section Short.
Variables (e2 : R) (p1 : vec3).
Hypothesis He : 0 <= e2 <= 2 / 100.
Hypothesis U1 : is_unit p1.
Notation x1 := (fst (fst p1)). Notation y1 := (snd (fst p1)). Notation z1 := (snd p1).
Lemma P1 : x1 ^ 2 + y1 ^ 2 + z1 ^ 2 = 1.
Proof. unfold is_unit in U1. destruct p1 as [[x y] z]. unfold vdot in U1. cbn in *. lra. Qed.
Notation sq := (sq x1 y1 z1). Notation reach := (reach e2 x1 y1 z1). Notation inside := (inside x1 y1 z1). Notation Tq := (Tq e2 x1 y1 z1).
Lemma sq_at p : sq (fst (fst p)) (snd (fst p)) (snd p) = unit_angle p1 p.
Proof. destruct p1 as [[x y] z], p as [[x' y'] z']. reflexivity. Qed.
Lemma unit_on p : is_unit p <-> onS (fst (fst p)) (snd (fst p)) (snd p).
Proof. destruct p as [[x y] z]. unfold is_unit, onS, vdot. cbn. split; intros; lra. Qed.
(** [long p u]: the geodesic from [p1] to [p] has length [u], or more than [M] *)
Definition Tp (p : vec3) (th : R) : R := Tq (fst (fst p)) (snd (fst p)) (snd p) th.
Definition reachp (p : vec3) (th : R) : Prop := reach (fst (fst p)) (snd (fst p)) (snd p) th.
Definition long (M : R) (p : vec3) (u : R) : Prop :=
  (p = p1 /\ u = 0) \/ (0 < unit_angle p1 p < 285 / 100 /\ exists th, reachp p th /\ u = Rmin M (Tp p th)) \/ (285 / 100 <= unit_angle p1 p /\ u = M).
Lemma inside_p p : is_unit p -> 0 < unit_angle p1 p < 285 / 100 -> inside (fst (fst p)) (snd (fst p)) (snd p).
Proof. intros H B. split; [now apply unit_on|]. rewrite sq_at. exact B. Qed.
Lemma T_bounds p th : is_unit p -> 0 < unit_angle p1 p < 285 / 100 -> reachp p th -> 96 / 100 * unit_angle p1 p <= Tp p th <= 102 / 100 * unit_angle p1 p.
Proof.
  intros H B [RR _]. rewrite sq_at in RR. pose proof (rot_sq x1 y1 z1 P1 (fst (fst p)) (snd (fst p)) (snd p) th (proj1 (unit_on p) H)) as Q. rewrite sq_at in Q. apply Rabs_le_between in Q.
  unfold Tp, L_short4.Tq, Sq. set (s := sq (rX (fst (fst p)) (snd (fst p)) th) (rY (fst (fst p)) (snd (fst p)) th) (snd p)) in *. set (d := dq _ _ _ _ _ _). assert (S0 : 0 <= s) by lra.
  assert (DD : z1 ^ 2 + d ^ 2 <= 1). { destruct (mid_facts x1 y1 z1 P1 _ _ _ (inside_mid x1 y1 z1 P1 _ _ _ th (inside_p p H B) ltac:(rewrite sq_at; lra))) as (_ & _ & _ & PD & _). fold d in PD. pose proof (pow2_ge_0 (pq x1 y1 z1 (rX (fst (fst p)) (snd (fst p)) th) (rY (fst (fst p)) (snd (fst p)) th) (snd p))). lra. }
  pose proof (Sf_lo e2 He z1 s d S0). pose proof (Sf_hi e2 He z1 s d S0 DD). lra.
Qed.
Section Path.
Variables (c : R -> vec3) (L M : R).
Hypothesis HL : 0 <= L.
Hypothesis HM : 0 < M <= 27 / 10.
Hypothesis Hc0 : c 0 = p1.
Hypothesis Hon : forall t, 0 <= t <= L -> is_unit (c t).
Hypothesis Lip : forall t t', 0 <= t <= L -> 0 <= t' <= L -> dist_e e2 (c t) (c t') <= Rabs (t - t').
Lemma ang_lip t t' : 0 <= t <= L -> 0 <= t' <= L -> unit_angle (c t) (c t') <= 3 * Rabs (t - t').
Proof. intros A B. pose proof (angle_chord _ _ (Hon t A) (Hon t' B)). pose proof (dist_chord e2 (c t) (c t') He). pose proof (Lip t t' A B). pose proof (Rabs_pos (t - t')). lra. Qed.
Lemma ang_close t t' : 0 <= t <= L -> 0 <= t' <= L -> Rabs (unit_angle p1 (c t') - unit_angle p1 (c t)) <= 3 * Rabs (t' - t).
Proof.
  intros A B. pose proof (ang_lip t t' A B) as Q. pose proof (L_vin3.angle_triangle p1 (c t) (c t') U1 (Hon t A) (Hon t' B)). pose proof (L_vin3.angle_triangle p1 (c t') (c t) U1 (Hon t' B) (Hon t A)) as T. rewrite (L_nvector.angle_sym (c t') (c t)) in T. rewrite (Rabs_minus_sym t t') in Q. apply Rabs_le. lra.
Qed.
Lemma long_ex t : 0 <= t <= L -> exists u, long M (c t) u.
Proof.
  intros A. pose proof (L_nvector.angle_range p1 (c t) U1 (Hon t A)) as RG. destruct (Rle_dec (unit_angle p1 (c t)) 0) as [Z|Z].
  - exists 0. left. split; [|reflexivity]. symmetry. apply (L_nvector.angle_0 p1 (c t) U1 (Hon t A)). lra.
  - destruct (Rlt_dec (unit_angle p1 (c t)) (285 / 100)) as [Y|Y].
    + assert (B : 0 < unit_angle p1 (c t) < 285 / 100) by lra. destruct (reach_exists e2 x1 y1 z1 He P1 _ _ _ (inside_p (c t) (Hon t A) B)) as (th & Hth). exists (Rmin M (Tp (c t) th)). right. left. split; [exact B|]. exists th. split; [exact Hth|reflexivity].
    + exists M. right. right. split; [lra|reflexivity].
Qed.
Lemma Rmin_lip m x y : Rabs (Rmin m x - Rmin m y) <= Rabs (x - y).
Proof. unfold Rmin. destruct (Rle_dec m x), (Rle_dec m y); unfold Rabs; repeat destruct (Rcase_abs _); lra. Qed.
Lemma ang_p1 : unit_angle p1 p1 = 0. Proof. now apply L_nvector.angle_0. Qed.
Lemma dist1 t t' : Rabs (fst (fst (c t')) - fst (fst (c t))) + Rabs (snd (fst (c t')) - snd (fst (c t))) + Rabs (snd (c t') - snd (c t)) <= 4 * dist_e e2 (c t') (c t).
Proof.
  unfold dist_e. set (u := fst (fst (c t')) - fst (fst (c t))). set (v := snd (fst (c t')) - snd (fst (c t))). set (w := snd (c t') - snd (c t)). set (q := u ^ 2 + v ^ 2 + (1 - e2) * w ^ 2).
  pose proof (pow2_ge_0 u). pose proof (pow2_ge_0 v). pose proof (pow2_ge_0 w). assert (0 <= (1 - e2) * w ^ 2) by (apply Rmult_le_pos; lra). assert (Q : 0 <= q) by (unfold q; lra).
  assert (A1 : Rabs u <= sqrt q) by (rewrite <- (sqrt_pow2 (Rabs u)) by apply Rabs_pos; apply sqrt_le_1_alt; rewrite pow2_abs; unfold q; lra).
  assert (A2 : Rabs v <= sqrt q) by (rewrite <- (sqrt_pow2 (Rabs v)) by apply Rabs_pos; apply sqrt_le_1_alt; rewrite pow2_abs; unfold q; lra).
  assert (A3 : Rabs w <= 2 * sqrt q). { assert (S : 2 = sqrt (2 ^ 2)) by (rewrite sqrt_pow2; lra). rewrite S, <- sqrt_mult by lra. rewrite <- (sqrt_pow2 (Rabs w)) by apply Rabs_pos. apply sqrt_le_1_alt. rewrite pow2_abs. unfold q. assert (e2 * w ^ 2 <= 2 / 100 * w ^ 2) by (apply Rmult_le_compat_r; lra). lra. }
  lra.
Qed.
Lemma long_end eps eta u : 0 < eps -> 0 < eta -> long M (c L) u -> u <= (1 + eps) * L + eta.
Proof.
  intros Heps Heta. apply (growth (fun t u => long M (c t) u) L (1 + eps) eta HL ltac:(lra) ltac:(lra)).
  - apply long_ex.
  - intros v. rewrite Hc0. intros [[_ ->]|[[B _]|[B _]]]; [lra| |]; rewrite ang_p1 in B; lra.
  - intros t v Ht [[Hp ->]|[[B (th & Hth & ->)]|[B ->]]].
    + right. split; [lra|]. exists (Rmin (eta / 4) (1 / 10)). split; [apply Rmin_glb_lt; lra|]. intros t' u' Ht' HU D. pose proof (Rmin_l (eta / 4) (1 / 10)). pose proof (Rmin_r (eta / 4) (1 / 10)).
      pose proof (ang_close t t' Ht Ht') as Q. rewrite Hp, ang_p1, Rminus_0_r in Q. pose proof (RRle_abs (unit_angle p1 (c t'))).
      destruct HU as [[_ ->]|[[B' (th' & Hth' & ->)]|[B' ->]]]; [lra| |lra]. pose proof (T_bounds _ _ (Hon t' Ht') B' Hth'). pose proof (Rmin_r M (Tp (c t') th')). lra.
    + left. pose proof (inside_p (c t) (Hon t Ht) B) as I0. destruct (rate e2 x1 y1 z1 He P1 _ _ _ th I0 Hth eps Heps) as (del & Hd & HR).
      set (r := Rmin (unit_angle p1 (c t)) (285 / 100 - unit_angle p1 (c t))). assert (R0 : 0 < r) by (apply Rmin_glb_lt; lra). pose proof (Rmin_l (unit_angle p1 (c t)) (285 / 100 - unit_angle p1 (c t))) as R1. pose proof (Rmin_r (unit_angle p1 (c t)) (285 / 100 - unit_angle p1 (c t))) as R2. fold r in R1, R2.
      exists (Rmin (del / 5) (r / 4)). split; [apply Rmin_glb_lt; lra|]. intros t' u' Ht' HU D. pose proof (Rmin_l (del / 5) (r / 4)). pose proof (Rmin_r (del / 5) (r / 4)). pose proof (ang_close t t' Ht Ht') as Q. apply Rabs_le_between in Q. pose proof (Rabs_pos (t' - t)).
      destruct HU as [[Hp ->]|[[B' (th' & Hth' & ->)]|[B' ->]]]; [exfalso; rewrite Hp, ang_p1 in Q; lra| |exfalso; lra].
      eapply Rle_trans; [apply Rmin_lip|]. pose proof (dist1 t t') as D1. pose proof (Lip t' t Ht' Ht) as LT.
      eapply Rle_trans; [apply (HR _ _ _ th' (proj1 (unit_on _) (Hon t' Ht')) Hth'); lra|]. apply Rmult_le_compat_l; [lra|exact LT].
    + left. exists (1 / 100). split; [lra|]. intros t' u' Ht' HU D. pose proof (ang_close t t' Ht Ht') as Q. apply Rabs_le_between in Q. pose proof (Rabs_pos (t' - t)).
      assert (K : u' = M). { destruct HU as [[Hp ->]|[[B' (th' & Hth' & ->)]|[B' ->]]]; [exfalso; rewrite Hp, ang_p1 in Q; lra| |reflexivity]. pose proof (T_bounds _ _ (Hon t' Ht') B' Hth') as TB. apply Rmin_left. lra. }
      rewrite K. replace (M - M) with 0 by ring. rewrite Rabs_R0. apply Rmult_le_pos; lra.
Qed.
Theorem long_le u : long M (c L) u -> u <= L.
Proof.
  intros H. apply Rnot_lt_le. intros X. set (g := u - L). assert (G : 0 < g) by (unfold g; lra).
  assert (E : 0 < g / (2 * (L + 1))) by (apply Rdiv_lt_0_compat; lra). pose proof (long_end (g / (2 * (L + 1))) (g / 4) u E ltac:(lra) H) as Q.
  assert (g / (2 * (L + 1)) * L <= g / 2). { apply Rle_trans with (g / (2 * (L + 1)) * (L + 1)); [apply Rmult_le_compat_l; lra|]. right. field. lra. } unfold g in *. lra.
Qed.
End Path.
End Short.
