(** Newton's method for an equation close to [z = lam], in a changed variable. *)
From Coq Require Import Reals Ranalysis5 Bool Lra Lia Psatz.
From Coquelicot Require Import Coquelicot.
From Verif Require Import PyMath M_karney L_PyMath L_karney2 L_karney7.
Open Scope R_scope.

Lemma exp_lo y : 1 - y <= exp (- y).
Proof. pose proof (exp_ineq1_le (- y)). lra. Qed.
Lemma exp_hi y : y < 1 -> exp y <= / (1 - y).
Proof. intros H. pose proof (exp_lo y) as E. rewrite exp_Ropp in E. pose proof (exp_pos y). rewrite <- (Rinv_inv (exp y)). apply Rinv_le_contravar; lra. Qed.
(** Mean value bound on an interval given by its centre. *)
Lemma mvt_abs (F : R -> R) a b K : (forall z, Rmin a b <= z <= Rmax a b -> exists d, is_derive F z d /\ Rabs d <= K) -> Rabs (F b - F a) <= K * Rabs (b - a).
Proof.
  intros H. destruct (MVT_gen F a b (Derive F)) as (c & Hc & E).
  - intros z Hz. destruct (H z) as (d & D & _); [lra|]. rewrite (is_derive_unique _ _ _ D). exact D.
  - intros z Hz. destruct (H z Hz) as (d & D & _). apply continuity_pt_filterlim. apply (ex_derive_continuous F). exists d. exact D.
  - rewrite E, Rabs_mult. apply Rmult_le_compat_r; [apply Rabs_pos|]. destruct (H c Hc) as (d & D & B). rewrite (is_derive_unique _ _ _ D). exact B.
Qed.
Lemma ivt_in (F : R -> R) a b y : a < b -> (forall z, a <= z <= b -> continuity_pt F z) -> F a < y < F b -> exists z, a <= z <= b /\ F z = y.
Proof.
  intros Hab C Hy. destruct (IVT_interv (fun z => F z - y) a b) as (z & Hz & E).
  - intros z Hz. apply continuity_pt_minus; [now apply C|]. apply continuity_pt_const. intros u v. reflexivity.
  - exact Hab.
  - lra.
  - lra.
  - exists z. split; [exact Hz|lra].
Qed.
Section Newton.
Variables (lam s : R) (az w h D : R -> R).
Hypothesis S0 : 0 < s.
Definition inI z := Rabs (z - lam) <= 8 / 100 * s.
Hypothesis Haz : forall z, inI z -> is_derive az z (w z).
Hypothesis Hw : forall z, inI z -> 0 < w z.
Hypothesis Hln : forall z, inI z -> exists d, is_derive (fun z => ln (w z)) z d /\ Rabs d <= 66 / 10 / s.
Hypothesis Hh : forall z, inI z -> Rabs (h z) <= 29 / 1000 * s.
Hypothesis Hh' : forall z, inI z -> exists d, is_derive h z d /\ Rabs d <= 4 / 100.
Hypothesis HD : forall z, inI z -> Rabs (D z * w z - 1) <= 6 / 100.
Definition rG z := z - lam + h z.
Lemma inI_between a b z : inI a -> inI b -> Rmin a b <= z <= Rmax a b -> inI z.
Proof. unfold inI. intros A B H. apply Rabs_le_between in A. apply Rabs_le_between in B. apply Rabs_le. unfold Rmin, Rmax in H. destruct (Rle_dec a b); lra. Qed.
Lemma ratio a b : inI a -> inI b -> let y := 66 / 10 / s * Rabs (b - a) in exp (- y) <= w b / w a <= exp y.
Proof.
  intros A B y. pose proof (mvt_abs (fun z => ln (w z)) a b (66 / 10 / s) ltac:(intros z Hz; apply Hln; now apply (inI_between a b))) as M. cbv beta in M. fold y in M.
  assert (E : w b / w a = exp (ln (w b) - ln (w a))). { unfold Rminus. rewrite exp_plus, exp_Ropp, !exp_ln by (now apply Hw). reflexivity. }
  rewrite E. apply Rabs_le_between in M. split; [destruct (Req_dec (- y) (ln (w b) - ln (w a))) as [->|]; [lra|left; apply exp_increasing; lra]|destruct (Req_dec (ln (w b) - ln (w a)) y) as [->|]; [lra|left; apply exp_increasing; lra]].
Qed.
Lemma az_grow a b : inI a -> inI b -> exists z, Rmin a b <= z <= Rmax a b /\ az b - az a = w z * (b - a).
Proof.
  intros A B. destruct (MVT_gen az a b w) as (c & Hc & E).
  - intros z Hz. apply Haz. apply (inI_between a b); auto; lra.
  - intros z Hz. apply continuity_pt_filterlim. apply (ex_derive_continuous az). exists (w z). apply Haz. now apply (inI_between a b).
  - exists c. split; [exact Hc|exact E].
Qed.
Lemma D_pos o : inI o -> 94 / 100 <= D o * w o <= 106 / 100 /\ 0 < D o.
Proof. intros H. pose proof (HD o H) as B. apply Rabs_le_between in B. split; [lra|]. pose proof (Hw o H) as W. apply Rnot_le_lt. intros X. assert (D o * w o <= 0) by nra. lra. Qed.
(** The new point exists. *)
Lemma step_exists o : Rabs (o - lam) <= 5 / 100 * s -> Rabs (rG o) <= 21 / 1000 * s -> exists o', Rabs (o' - o) <= 135 / 100 * Rabs (rG o) /\ az o' = az o - rG o / D o.
Proof.
  intros Ho Hv. set (v := rG o) in *. assert (Io : inI o) by (unfold inI; lra). destruct (D_pos o Io) as [DW D0]. pose proof (Hw o Io) as W.
  destruct (Req_dec v 0) as [Z|NZ]. { exists o. rewrite Z. replace (o - o) with 0 by ring. rewrite Rabs_R0. unfold Rdiv. rewrite Rmult_0_l, Rminus_0_r. split; [lra|reflexivity]. }
  pose proof (Rabs_pos_lt v NZ) as Vp. set (dl := 135 / 100 * Rabs v) in *.
  assert (Dl : 0 < dl <= 2835 / 100000 * s) by (unfold dl; lra).
  assert (DD : Rabs (v / D o) <= Rabs v * w o / (94 / 100)).
  { unfold Rdiv at 1. rewrite Rabs_mult, (Rabs_right (/ D o)) by (left; now apply Rinv_0_lt_compat). apply Rmult_le_reg_r with (D o); [exact D0|]. rewrite Rmult_assoc, Rinv_l, Rmult_1_r by lra.
    replace (Rabs v * w o / (94 / 100) * D o) with (Rabs v * ((D o * w o) / (94 / 100))) by field. rewrite <- (Rmult_1_r (Rabs v)) at 1. apply Rmult_le_compat_l; lra. }
  assert (IB : forall q, Rabs (q - o) <= dl -> inI q). { intros q Hq. unfold inI. replace (q - lam) with ((q - o) + (o - lam)) by ring. eapply Rle_trans; [apply Rabs_triang|]. lra. }
  assert (G : forall q, Rabs (q - o) = dl -> Rabs (az q - az o) > Rabs v * w o / (94 / 100) /\ 0 < (az q - az o) * (q - o)).
  { intros q Hq. destruct (az_grow o q Io (IB q ltac:(lra))) as (z & Hz & E).
    assert (Iz : inI z) by (apply (inI_between o q); auto; apply IB; lra).
    assert (Zo : Rabs (z - o) <= dl) by (rewrite <- Hq; unfold Rmin, Rmax in Hz; destruct (Rle_dec o q); unfold Rabs; repeat destruct (Rcase_abs _); lra).
    pose proof (ratio o z Io Iz) as [RL _]. cbv zeta in RL. set (y := 66 / 10 / s * Rabs (z - o)) in *.
    assert (Y : y <= 1872 / 10000). { unfold y. apply Rle_trans with (66 / 10 / s * (2835 / 100000 * s)); [apply Rmult_le_compat_l; [left; apply Rdiv_lt_0_compat; lra|lra]|]. replace (66 / 10 / s * (2835 / 100000 * s)) with (66 / 10 * (2835 / 100000)) by (field; lra). lra. }
    pose proof (exp_lo y) as EL. assert (WZ : 8128 / 10000 * w o <= w z). { apply Rmult_le_reg_r with (/ w o); [now apply Rinv_0_lt_compat|]. replace (8128 / 10000 * w o * / w o) with (8128 / 10000) by (field; lra). unfold Rdiv in RL. lra. }
    pose proof (Hw z Iz) as Wz. rewrite E. split.
    - rewrite Rabs_mult, (Rabs_right (w z)), Hq by lra. unfold dl. apply Rlt_le_trans with (8128 / 10000 * w o * (135 / 100 * Rabs v)).
      + assert (0 < Rabs v * w o) by nra. lra.
      + apply Rmult_le_compat_r; lra.
    - assert (q - o <> 0) by (intros X; rewrite X, Rabs_R0 in Hq; lra). replace (w z * (q - o) * (q - o)) with (w z * (q - o) ^ 2) by ring. apply Rmult_lt_0_compat; [exact Wz|]. pose proof (pow2_ge_0 (q - o)). assert ((q - o) ^ 2 <> 0) by (apply pow_nonzero; assumption). lra. }
  assert (CT : forall z, inI z -> continuity_pt az z) by (intros z Hz; apply continuity_pt_filterlim, (ex_derive_continuous az); exists (w z); now apply Haz).
  destruct (G (o + dl)) as [G1 G2]. { replace (o + dl - o) with dl by ring. apply Rabs_right. lra. }
  destruct (G (o - dl)) as [G3 G4]. { replace (o - dl - o) with (- dl) by ring. rewrite Rabs_Ropp. apply Rabs_right. lra. }
  replace (o + dl - o) with dl in G2 by ring. replace (o - dl - o) with (- dl) in G4 by ring.
  assert (P1 : 0 < az (o + dl) - az o) by (apply Rnot_le_lt; intros X; nra). assert (P2 : az (o - dl) - az o < 0) by (apply Rnot_le_lt; intros X; nra).
  rewrite Rabs_right in G1 by lra. rewrite Rabs_left in G3 by lra. apply Rabs_le_between in DD.
  destruct (ivt_in az (o - dl) (o + dl) (az o - v / D o)) as (q & Hq & E); [lra| |lra|].
  - intros z Hz. apply CT, IB. apply Rabs_le. lra.
  - exists q. split; [apply Rabs_le; lra|exact E].
Qed.
Lemma step_good o : Rabs (o - lam) <= 5 / 100 * s -> Rabs (rG o) <= 21 / 1000 * s -> exists o', Rabs (o' - lam) <= 5 / 100 * s /\ az o' = az o - rG o / D o /\
  Rabs (rG o') <= (11 / 100 + 13 * (Rabs (rG o) / s)) * Rabs (rG o).
Proof.
  intros Ho Hv. destruct (step_exists o Ho Hv) as (q & Hq & E). exists q. set (v := rG o) in *. assert (Io : inI o) by (unfold inI; lra). destruct (D_pos o Io) as [DW D0]. pose proof (Hw o Io) as W.
  assert (Iq : inI q). { unfold inI. replace (q - lam) with ((q - o) + (o - lam)) by ring. eapply Rle_trans; [apply Rabs_triang|]. lra. }
  assert (GV : Rabs (rG q) <= (11 / 100 + 13 * (Rabs v / s)) * Rabs v).
  { destruct (az_grow o q Io Iq) as (z & Hz & Ez). assert (Iz : inI z) by (now apply (inI_between o q)). pose proof (Hw z Iz) as Wz.
    assert (Zo : Rabs (z - o) <= 135 / 100 * Rabs v) by (apply Rle_trans with (2 := Hq); unfold Rmin, Rmax in Hz; destruct (Rle_dec o q); unfold Rabs; repeat destruct (Rcase_abs _); lra).
    assert (EQ : q - o = - v * (w o / w z) / (D o * w o)). { assert (X : w z * (q - o) = - v / D o) by lra. apply Rmult_eq_reg_l with (w z); [|lra]. rewrite X. field. repeat apply conj; lra. }
    destruct (MVT_gen rG o q (Derive rG)) as (x & Hx & Ex).
    { intros u Hu. destruct (Hh' u) as (d & Dd & _); [apply (inI_between o q); auto; lra|]. apply Derive_correct. unfold rG. auto_derive. exists d. exact Dd. }
    { intros u Hu. destruct (Hh' u) as (d & Dd & _); [now apply (inI_between o q)|]. apply continuity_pt_filterlim, (ex_derive_continuous rG). unfold rG. auto_derive. exists d. exact Dd. }
    assert (Ix : inI x) by (now apply (inI_between o q)). destruct (Hh' x Ix) as (d & Dd & Bd).
    assert (DG : Derive rG x = 1 + d). { apply is_derive_unique. unfold rG. auto_derive; [exists d; exact Dd|]. replace (Derive (fun x => h x) x) with d by (symmetry; apply is_derive_unique; exact Dd). ring. }
    rewrite DG in Ex. fold v in Ex. set (p := (w o / w z) * ((1 + d) / (D o * w o))).
    assert (VE : rG q = v * (1 - p)). { replace (rG q) with (v + (1 + d) * (q - o)) by lra. rewrite EQ. unfold p. field. repeat apply conj; lra. }
    rewrite VE, Rabs_mult, (Rmult_comm _ (Rabs v)). apply Rmult_le_compat_l; [apply Rabs_pos|].
    pose proof (ratio z o Iz Io) as [RL RU]. cbv zeta in RL, RU. rewrite (Rabs_minus_sym o z) in RL, RU. set (y := 66 / 10 / s * Rabs (z - o)) in *.
    set (t := Rabs v / s). assert (T : 0 <= t <= 21 / 1000).
    { unfold t. split; [apply Rmult_le_pos; [apply Rabs_pos|left; now apply Rinv_0_lt_compat]|]. apply Rmult_le_reg_r with s; [exact S0|]. unfold Rdiv. rewrite Rmult_assoc, Rinv_l, Rmult_1_r by lra. exact Hv. }
    assert (Y0 : 0 <= y) by (unfold y; apply Rmult_le_pos; [left; apply Rdiv_lt_0_compat; lra|apply Rabs_pos]).
    assert (Y1 : y <= 891 / 100 * t). { unfold y. apply Rle_trans with (66 / 10 / s * (135 / 100 * Rabs v)); [apply Rmult_le_compat_l; [left; apply Rdiv_lt_0_compat; lra|lra]|]. unfold t. right. field. lra. }
    pose proof (exp_lo y) as EL. pose proof (exp_hi y ltac:(lra)) as EH.
    assert (EH' : / (1 - y) <= 1 + 1235 / 1000 * y). { apply Rmult_le_reg_r with (1 - y); [lra|]. rewrite Rinv_l by lra. nra. }
    apply Rabs_le_between in Bd. set (m := (1 + d) / (D o * w o)) in *.
    assert (M : 905 / 1000 <= m <= 1107 / 1000).
    { unfold m. split; apply Rmult_le_reg_r with (D o * w o); try lra; unfold Rdiv; rewrite ?Rmult_assoc, ?Rinv_l, ?Rmult_1_r by lra; nra. }
    set (k := w o / w z) in *. assert (K : 1 - y <= k <= 1 + 1235 / 1000 * y) by lra.
    apply Rabs_le. unfold p. clear - M K Y0 Y1 T. clearbody m k y t. split; nra. }
  split; [|split; [exact E|exact GV]].
  pose proof (Hh q Iq) as HH. unfold rG in GV at 1. replace (q - lam) with ((q - lam + h q) - h q) by ring.
  eapply Rle_trans; [apply Rabs_triang|]. rewrite Rabs_Ropp.
  assert (T : Rabs v / s <= 21 / 1000). { apply Rmult_le_reg_r with s; [exact S0|]. unfold Rdiv. rewrite Rmult_assoc, Rinv_l, Rmult_1_r by lra. exact Hv. }
  pose proof (Rabs_pos v). assert ((11 / 100 + 13 * (Rabs v / s)) * Rabs v <= 4 / 10 * (21 / 1000 * s)); [|lra]. apply Rmult_le_compat; try lra.
  assert (0 <= Rabs v / s) by (apply Rmult_le_pos; [lra|left; now apply Rinv_0_lt_compat]). lra.
Qed.

(** ** The loop *)
Variable eval : R -> R -> bool -> lambda12.
Hypothesis Hs1 : s <= 1.
Hypothesis Hev : forall z, inI z -> 0 < sin (az z) /\ l_lam12 (eval (sin (az z)) (cos (az z)) true) = rG z /\ l_dlam12 (eval (sin (az z)) (cos (az z)) true) = D z.
(** bound on the residual at the start of round i *)
Fixpoint rb (i : nat) : R := match i with O => 21 / 1000 | S j => rb j * (if (j <=? 2)%nat then 4 / 10 else / 7) end.
Lemma rb_val i : (i <= 19)%nat -> 0 < rb i <= 21 / 1000 /\ ((2 < i)%nat -> rb i <= 14 / 10000).
Proof.
  intros H. induction i as [|i IH]; [cbn; split; [lra|intros; lia]|]. destruct (IH ltac:(lia)) as [A B]. cbn [rb]. destruct (Nat.leb_spec i 2) as [L|L].
  - split; [lra|]. intros K. assert (i = 2)%nat by lia. subst i. cbn. lra.
  - specialize (B L). split; [lra|]. intros _. lra.
Qed.
Lemma rb_step i t : (i < 19)%nat -> 0 <= t <= rb i -> (11 / 100 + 13 * t) * t <= rb (S i).
Proof.
  intros H Ht. destruct (rb_val i ltac:(lia)) as [A B]. cbn [rb]. destruct (Nat.leb_spec i 2) as [L|L].
  - apply Rle_trans with (4 / 10 * rb i); [|lra]. apply Rmult_le_compat; lra.
  - specialize (B L). apply Rle_trans with (/ 7 * rb i); [|lra]. apply Rmult_le_compat; lra.
Qed.
Lemma rb_19 : rb 19 < 8 * k_tol0.
Proof. unfold k_tol0. cbn. lra. Qed.
Lemma bracket_cur e v st : n_salp1 (bracket e v st) = n_salp1 st /\ n_calp1 (bracket e v st) = n_calp1 st.
Proof. unfold bracket. cbv zeta. destruct (if Rlt_dec 0 v then _ else _); [split; reflexivity|]. destruct (if Rlt_dec v 0 then _ else _); split; reflexivity. Qed.
Lemma newton_taken st v o o' : n_salp1 st = sin (az o) -> n_calp1 st = cos (az o) -> D o <> 0 -> 0 < sin (az o') -> az o' = az o - v / D o ->
  exists st', newton true v (D o) st = Some st' /\ n_salp1 st' = sin (az o') /\ n_calp1 st' = cos (az o') /\ (n_tripb st' = true -> Rabs v <= 16 * k_tol0).
Proof.
  intros A B Dn P E. unfold newton. destruct (Req_EM_T (D o) 0) as [|_]; [contradiction|]. cbn [andb]. cbv zeta. rewrite A, B.
  assert (E' : az o' = az o + - v / D o) by (rewrite E; unfold Rdiv; ring).
  replace (sin (az o) * cos (- v / D o) + cos (az o) * sin (- v / D o)) with (sin (az o')) by (rewrite E'; rewrite sin_plus; ring).
  replace (cos (az o) * cos (- v / D o) - sin (az o) * sin (- v / D o)) with (cos (az o')) by (rewrite E'; rewrite cos_plus; ring).
  destruct (Rlt_dec 0 (sin (az o'))) as [_|X]; [|contradiction]. unfold norm2.
  assert (HY : hypot (sin (az o')) (cos (az o')) = 1) by (apply hypot_uniq; [lra|]; pose proof (sc1 (az o')); lra). rewrite HY. unfold Rdiv. rewrite Rinv_1, !Rmult_1_r.
  eexists. split; [reflexivity|]. cbn [n_salp1 n_calp1 n_tripb]. split; [reflexivity|]. split; [reflexivity|]. destruct (Rle_dec (Rabs v) (16 * k_tol0)); [auto|discriminate].
Qed.
Lemma loop_eq k ev st last : newton_loop (S k) ev st last =
      let numit := (k_maxit2 - S k)%nat in
      let early := Nat.ltb numit k_maxit1 in
      let L := ev (n_salp1 st) (n_calp1 st) early in
      let v := l_lam12 L in
      if (n_tripb st || if Rle_dec ((if early then 8 else 1) * k_tol0) (Rabs v) then false else true)%bool
      then (n_salp1 st, n_calp1 st, L)
      else
        let s := bracket early v st in
        match newton early v (l_dlam12 L) s with
        | Some s' => newton_loop k ev s' L
        | None =>
            let '(s', stop) := bisect s in
            if stop : bool then (n_salp1 s', n_calp1 s', L) else newton_loop k ev s' L
        end.
Proof. reflexivity. Qed.
Lemma loop_converges m : forall i st last o, (i + m = 19)%nat -> n_salp1 st = sin (az o) -> n_calp1 st = cos (az o) -> Rabs (o - lam) <= 5 / 100 * s -> Rabs (rG o) <= rb i * s ->
  (n_tripb st = true -> Rabs (rG o) < 8 * k_tol0) ->
  exists sa ca, newton_loop (12 + m) eval st last = (sa, ca, eval sa ca true) /\ Rabs (l_lam12 (eval sa ca true)) < 8 * k_tol0.
Proof.
  induction m as [|m IH]; intros i st last o Hi A B Ho Hv Ht.
  - assert (i = 19)%nat by lia. subst i. assert (Io : inI o) by (unfold inI; lra). destruct (Hev o Io) as (_ & El & _).
    exists (sin (az o)), (cos (az o)). change (12 + 0)%nat with (S 11). rewrite loop_eq. cbv zeta. rewrite A, B. replace (Nat.ltb (k_maxit2 - 12) k_maxit1) with true by reflexivity. rewrite El.
    assert (Q : Rabs (rG o) < 8 * k_tol0). { pose proof rb_19. destruct (rb_val 19 ltac:(lia)) as [X _]. assert (rb 19 * s <= rb 19 * 1) by (apply Rmult_le_compat_l; lra). lra. }
    destruct (Rle_dec _ _) as [X|_]; [lra|]. rewrite orb_true_r. split; [reflexivity|exact Q].
  - assert (Io : inI o) by (unfold inI; lra). destruct (Hev o Io) as (Sp & El & Ed). replace (12 + S m)%nat with (S (12 + m)) by lia. rewrite loop_eq. cbv zeta. rewrite A, B.
    replace (Nat.ltb (k_maxit2 - S (12 + m)) k_maxit1) with true by (symmetry; apply Nat.ltb_lt; unfold k_maxit2, k_maxit1; lia).
    rewrite El. destruct (n_tripb st) eqn:Tb.
    { cbn [orb]. exists (sin (az o)), (cos (az o)). rewrite El. split; [reflexivity|]. now apply Ht. }
    cbn [orb]. destruct (Rle_dec (8 * k_tol0) (Rabs (rG o))) as [Big|Sm].
    2: { apply Rnot_le_lt in Sm. exists (sin (az o)), (cos (az o)). rewrite El. split; [reflexivity|exact Sm]. }
    rewrite Ed. destruct (bracket_cur true (rG o) st) as [A' B']. set (st' := bracket true (rG o) st) in *. rewrite A in A'. rewrite B in B'.
    destruct (rb_val i ltac:(lia)) as [Rb _]. assert (Hv' : Rabs (rG o) <= 21 / 1000 * s) by (apply Rle_trans with (1 := Hv); apply Rmult_le_compat_r; lra).
    destruct (step_good o Ho Hv') as (o' & Ho' & Eo' & Go'). assert (Io' : inI o') by (unfold inI; lra). destruct (Hev o' Io') as (Sp' & _).
    destruct (D_pos o Io) as [_ D0]. destruct (newton_taken st' (rG o) o o' A' B' ltac:(lra) Sp' Eo') as (st2 & -> & A2 & B2 & T2).
    set (t := Rabs (rG o) / s) in *. assert (T : 0 <= t <= rb i).
    { unfold t. split; [apply Rmult_le_pos; [apply Rabs_pos|left; now apply Rinv_0_lt_compat]|]. apply Rmult_le_reg_r with s; [exact S0|]. unfold Rdiv. rewrite Rmult_assoc, Rinv_l, Rmult_1_r by lra. exact Hv. }
    assert (Vt : Rabs (rG o) = t * s) by (unfold t; field; lra).
    apply (IH (S i) st2 _ o'); [lia|exact A2|exact B2|exact Ho'| |].
    + apply Rle_trans with (1 := Go'). rewrite Vt, <- Rmult_assoc. apply Rmult_le_compat_r; [lra|]. apply rb_step; [lia|exact T].
    + intros Q. specialize (T2 Q). pose proof tol0_pos as TP. apply Rle_lt_trans with (1 := Go'). apply Rle_lt_trans with (4 / 10 * (16 * k_tol0)); [|lra]. apply Rmult_le_compat; try lra.
Qed.
Theorem newton_converges sa0 ca0 x y z t o last : sa0 = sin (az o) -> ca0 = cos (az o) -> Rabs (o - lam) <= 5 / 100 * s -> Rabs (rG o) <= 21 / 1000 * s ->
  exists sa ca, newton_loop k_maxit2 eval (mkNstate sa0 ca0 x y z t false) last = (sa, ca, eval sa ca true) /\ Rabs (l_lam12 (eval sa ca true)) < 8 * k_tol0.
Proof. intros A B Ho Hv. apply (loop_converges 19 0 _ last o); cbn [n_salp1 n_calp1 n_tripb rb]; auto. discriminate. Qed.
End Newton.
