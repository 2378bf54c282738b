(** The Karney inverse solver: from the canonical problem to the answer. *)
From Coq Require Import Reals Lra Lia Psatz.
From Verif Require Import PyMath M_karney L_PyMath L_karney L_karney2 L_karney3 L_karney4 L_karney5 L_karney6 L_karney7 L_karney8 Spec Spec_geodesic L_geodesic5 L_geodesic6 L_geodesic7 L_geodesic8 L_geodesic9.
Open Scope R_scope.

(** The longitude equation of the canonical problem (latitudes A and B, longitude
    difference L, degrees) for the departure azimuth with sine [sa], cosine [ca]; and
    the search that looks for its root. *)
Definition equation (g : Geodesic) (A B L sa ca : R) (dp : bool) : lambda12 :=
  let '(sb1, cb1) := reduced g A in let '(sb2, cb2) := reduced g B in let sb2 := sbet_fix sb1 cb1 sb2 cb2 in
  Lambda12 g sb1 cb1 (sqrt (1.0 + gd_ep2 g * sb1 ^ 2)) sb2 cb2 (sqrt (1.0 + gd_ep2 g * sb2 ^ 2)) sa ca (sin (radians L)) (cos (radians L)) dp.
Definition search (g : Geodesic) (A B L : R) : R * R * lambda12 :=
  let '(sb1, cb1) := reduced g A in let '(sb2, cb2) := reduced g B in let sb2 := sbet_fix sb1 cb1 sb2 cb2 in
  let '(sa, ca) := InverseStart g sb1 cb1 (sqrt (1.0 + gd_ep2 g * sb1 ^ 2)) sb2 cb2 (sqrt (1.0 + gd_ep2 g * sb2 ^ 2)) (radians L) (sin (radians L)) (cos (radians L)) in
  newton_loop k_maxit2 (equation g A B L) (mkNstate sa ca k_tiny 1.0 k_tiny (-1.0) false) no_lambda.
(** The search accepted the azimuth it returns, with a residual of at most [v]. *)
Definition settles (g : Geodesic) (A B L v : R) : Prop :=
  let '(sa, ca, r) := search g A B L in (exists dp, r = equation g A B L sa ca dp) /\ Rabs (l_lam12 r) <= v.

Lemma reduced_U g lat : oblate g -> k_tiny <= cos (radians lat) -> exists U, reduced g lat = (sin U, cos U) /\ 0 < cos U /\ reduces (gd_f g) (radians lat) U /\
  sin U ^ 2 * ((gd_f1 g * sin (radians lat)) ^ 2 + cos (radians lat) ^ 2) = (gd_f1 g * sin (radians lat)) ^ 2.
Proof.
  intros O HT. pose proof tiny_pos as TP. pose proof (oblate_f1 g O) as Ff. pose proof O as (Hab & F & F1 & _). set (x := radians lat) in *. pose proof (sc1 x) as Q.
  destruct (reduced_eq g lat ltac:(lra) ltac:(fold x; lra)) as (h & hp & E1 & E2 & hh). fold x in E1, E2, hh.
  assert (h1 : h <= 1). { assert (h ^ 2 <= 1); [|apply Rnot_lt_le; intros X; nra]. rewrite hh, Rpow_mult_distr. assert (gd_f1 g ^ 2 <= 1) by (destruct Ff; nra). pose proof (pow2_ge_0 (sin x)). nra. }
  assert (CH : cos x <= cos x / h). { apply Rmult_le_reg_r with h; [lra|]. unfold Rdiv. rewrite Rmult_assoc, Rinv_l by lra. nra. }
  rewrite Rmax_right in E2 by lra. destruct (reduced g lat) as [sb cb]. cbn [fst snd] in *.
  assert (N : sb ^ 2 + cb ^ 2 = 1). { rewrite E1, E2. replace ((sin x * gd_f1 g / h) ^ 2 + (cos x / h) ^ 2) with (((sin x * gd_f1 g) ^ 2 + cos x ^ 2) / h ^ 2) by (field; lra). rewrite <- hh. field. lra. }
  destruct (unit_polar sb cb N) as [S C]. exists (atan2 sb cb). rewrite S, C. split; [reflexivity|]. split; [rewrite E2; apply Rdiv_lt_0_compat; lra|]. split.
  - exists h. rewrite S, C, E1, E2, F1. repeat split; [exact hp| |]; field; lra.
  - rewrite E1. replace ((gd_f1 g * sin x) ^ 2 + cos x ^ 2) with (h ^ 2) by (rewrite hh; ring). field. lra.
Qed.
(** The larger latitude has the larger reduced latitude. *)
Lemma reduces_sin f phi U : 0 <= f < 1 -> reduces f phi U -> (sin phi < 0 -> sin U < 0) /\ (0 <= sin phi -> 0 <= sin U).
Proof.
  intros F (h & Hh & A & _). split; intros X.
  - assert (sin U * h < 0); [|nra]. rewrite A. nra.
  - assert (0 <= sin U * h); [|nra]. rewrite A. nra.
Qed.
Lemma reduced_order q S1 S2 x1 x2 : 0 < q -> 0 <= x1 <= x2 -> x2 <= 1 -> S1 * (q * x1 + (1 - x1)) = q * x1 -> S2 * (q * x2 + (1 - x2)) = q * x2 -> S1 <= S2.
Proof.
  intros Hq Hx H1 E1 E2. assert (D1 : 0 < q * x1 + (1 - x1)) by (destruct (Req_dec x1 1) as [-> |]; nra). assert (D2 : 0 < q * x2 + (1 - x2)) by (destruct (Req_dec x2 1) as [-> |]; nra).
  apply Rmult_le_reg_r with (q * x1 + (1 - x1)); [exact D1|]. rewrite E1. apply Rmult_le_reg_r with (q * x2 + (1 - x2)); [exact D2|].
  replace (S2 * (q * x1 + (1 - x1)) * (q * x2 + (1 - x2))) with (S2 * (q * x2 + (1 - x2)) * (q * x1 + (1 - x1))) by ring. rewrite E2. nra.
Qed.
Lemma canon_setup g A B : oblate g -> -90 < A < 0 -> Rabs B <= - A -> k_tiny <= cos (radians A) ->
  exists U1 U2, reduced g A = (sin U1, cos U1) /\ reduced g B = (sin U2, cos U2) /\ 0 < cos U1 /\ 0 < cos U2 /\ reduces (gd_f g) (radians A) U1 /\ reduces (gd_f g) (radians B) U2 /\
    sin U1 < 0 /\ Rabs (sin U2) <= - sin U1 /\ sbet_fix (sin U1) (cos U1) (sin U2) (cos U2) = sin U2.
Proof.
  intros O HA HB T. assert (HB' : A <= B <= - A) by (unfold Rabs in HB; destruct (Rcase_abs B); lra). clear HB. pose proof O as (Hab & F & F1 & _). pose proof (oblate_f1 g O) as Ff.
  assert (SB1 : sin (radians B) <= - sin (radians A)). { rewrite <- sin_neg, <- radians_opp. apply sin_lat_mono; lra. }
  assert (SB2 : sin (radians A) <= sin (radians B)) by (apply sin_lat_mono; lra).
  assert (SA0 : sin (radians A) < 0). { assert (sin (radians A) <= 0). { replace 0 with (sin (radians 0)) by (replace (radians 0) with 0 by (unfold radians, Rdiv; ring); apply sin_0). apply sin_lat_mono; lra. }
    destruct (Req_dec (sin (radians A)) 0) as [Z|]; [|lra]. exfalso. pose proof PI_RGT_0. assert (X : 0 < sin (- radians A)) by (apply sin_gt_0; unfold radians; nra). rewrite sin_neg in X. lra. }
  pose proof (sc1 (radians A)) as QA. pose proof (sc1 (radians B)) as QB.
  assert (CB0 : 0 <= cos (radians B)). { unfold radians. pose proof PI_RGT_0. apply cos_ge_0; nra. }
  assert (SS : sin (radians B) ^ 2 <= sin (radians A) ^ 2) by nra. pose proof tiny_pos as TP.
  assert (CAB : cos (radians A) <= cos (radians B)). { apply Rnot_lt_le; intros X; nra. }
  destruct (reduced_U g A O T) as (U1 & E1 & C1 & R1 & S1). destruct (reduced_U g B O ltac:(lra)) as (U2 & E2 & C2 & R2 & S2).
  exists U1, U2. assert (SU1 : sin U1 < 0) by (apply (reduces_sin (gd_f g) (radians A)); assumption).
  assert (LE : sin U2 ^ 2 <= sin U1 ^ 2).
  { apply (reduced_order (gd_f1 g ^ 2) _ _ (sin (radians B) ^ 2) (sin (radians A) ^ 2)); [apply pow_lt; lra|split; [apply pow2_ge_0|exact SS]|nra| |].
    - rewrite Rpow_mult_distr in S2. replace (1 - sin (radians B) ^ 2) with (cos (radians B) ^ 2) by lra. exact S2.
    - rewrite Rpow_mult_distr in S1. replace (1 - sin (radians A) ^ 2) with (cos (radians A) ^ 2) by lra. exact S1. }
  assert (LA : Rabs (sin U2) <= - sin U1) by (apply Rsqr_incr_0_var; [rewrite <- Rsqr_abs, !Rsqr_pow2; nra|lra]).
  repeat (split; [assumption|]). unfold sbet_fix. destruct (Rlt_dec _ _); [|reflexivity]. destruct (Req_EM_T _ _) as [E|]; [|reflexivity].
  pose proof (sc1 U1) as X1. pose proof (sc1 U2) as X2. rewrite E in X2. assert (Q : (sin U2 - sin U1) * (sin U2 + sin U1) = 0) by (ring_simplify; nra). apply Rmult_integral in Q.
  destruct (Rlt_dec (sin U2) 0); lra.
Qed.
(** Invariant of the search: the azimuth is a unit pair with positive sine. *)
Definition st_ok (s : nstate) : Prop := 0 < n_salp1 s /\ n_salp1 s ^ 2 + n_calp1 s ^ 2 = 1 /\ 0 < n_salp1a s /\ 0 < n_salp1b s.
Lemma norm2_pos x y : 0 < x -> let '(p, q) := norm2 x y in 0 < p /\ p ^ 2 + q ^ 2 = 1.
Proof.
  intros H. pose proof (norm2_unit x y ltac:(left; lra)) as Q. unfold norm2 in *. destruct Q as (Q & _). split; [|exact Q]. apply Rdiv_lt_0_compat; [exact H|]. apply hypot_pos. left. lra.
Qed.
Lemma bracket_ok e v s : st_ok s -> st_ok (bracket e v s).
Proof.
  intros (A & B & C & D). unfold bracket.
  destruct (if Rlt_dec 0 v then _ else _); [repeat split; assumption|]. destruct (if Rlt_dec v 0 then _ else _); repeat split; assumption.
Qed.
Lemma newton_ok e v d s s' : st_ok s -> newton e v d s = Some s' -> st_ok s'.
Proof.
  intros (A & B & C & D). unfold newton. cbv zeta. destruct (andb _ _); [|discriminate]. destruct (Rlt_dec _ _) as [P|]; [|discriminate].
  pose proof (norm2_pos _ (n_calp1 s * cos (- v / d) - n_salp1 s * sin (- v / d)) P) as Q. destruct (norm2 _ _) as [p q]. destruct Q. intros E.
  assert (X : s' = mkNstate p q (n_salp1a s) (n_calp1a s) (n_salp1b s) (n_calp1b s) (if Rle_dec (Rabs v) (16 * k_tol0) then true else false)) by congruence. rewrite X. repeat split; assumption.
Qed.
Lemma bisect_ok s : st_ok s -> st_ok (fst (bisect s)).
Proof.
  intros (A & B & C & D). unfold bisect. cbv zeta. pose proof (norm2_pos ((n_salp1a s + n_salp1b s) / 2.0) ((n_calp1a s + n_calp1b s) / 2.0) ltac:(lra)) as Q. destruct (norm2 _ _) as [p q]. destruct Q. cbn [fst]. repeat split; assumption.
Qed.
Lemma loop_ok eval fuel s last : st_ok s -> let '(sa, ca, _) := newton_loop fuel eval s last in 0 < sa /\ sa ^ 2 + ca ^ 2 = 1.
Proof.
  revert s last. induction fuel as [|k IH]; intros s last H; [destruct H as (A & B & _); cbn; auto|]. cbn [newton_loop]. cbv zeta.
  set (e := Nat.ltb _ _). set (Lm := eval _ _ _). destruct (orb _ _); [destruct H as (A & B & _); auto|].
  pose proof (bracket_ok e (l_lam12 Lm) s H) as H'. destruct (newton _ _ _ _) as [s'|] eqn:E.
  - apply IH. now apply (newton_ok _ _ _ _ _ H' E).
  - pose proof (bisect_ok _ H') as H2. destruct (bisect _) as [s' st]. cbn [fst] in H2. destruct st; [destruct H2 as (A & B & _); auto|]. now apply IH.
Qed.
Lemma start_ok g sb1 cb1 dn1 sb2 cb2 dn2 lam sl cl : let '(sa, ca) := InverseStart g sb1 cb1 dn1 sb2 cb2 dn2 lam sl cl in 0 < sa /\ sa ^ 2 + ca ^ 2 = 1.
Proof.
  unfold InverseStart. cbv zeta.
  match goal with |- match (match ?p with pair _ _ => _ end) with pair _ _ => _ end => destruct p as [so co] end.
  match goal with |- match (match ?p with pair _ _ => _ end) with pair _ _ => _ end => destruct p as [s1 c1] end.
  destruct (Rlt_dec 0 s1) as [P|]; [now apply norm2_pos|]. split; lra.
Qed.
Lemma search_ok g A B L : let '(sa, ca, _) := search g A B L in 0 < sa /\ sa ^ 2 + ca ^ 2 = 1.
Proof.
  unfold search. destruct (reduced g A) as [sb1 cb1]. destruct (reduced g B) as [sb2 cb2]. cbv zeta.
  match goal with |- context [InverseStart ?a ?b ?c ?d ?e ?f ?h ?i ?j ?k] => pose proof (start_ok a b c d e f h i j k) as P; destruct (InverseStart a b c d e f h i j k) as [sa ca] end.
  destruct P as [P Q]. apply loop_ok. pose proof tiny_pos. repeat split; assumption.
Qed.

(** Travelling along a meridian. *)
Definition meridian_dist (g : Geodesic) (A B L : R) : R :=
  let '(sb1, cb1) := reduced g A in let '(sb2, cb2) := reduced g B in
  let cs1 := cos (radians L) * cb1 in
  let sig12 := atan2 (Rmax 0.0 (cs1 * sb2 - sb1 * cb2)) (cs1 * cb2 + sb1 * sb2) in
  gd_b g * ((1 + A1m1f (gd_n g)) * (sig12 + (SinCosSeries true sb2 cb2 (arr (C1f (gd_n g))) nC1 - SinCosSeries true sb1 cs1 (arr (C1f (gd_n g))) nC1))).
Lemma lambda_meridian g U1 U2 lam dn1 dn2 dp : oblate g -> sin lam = 0 -> 0 < cos U1 -> 0 < cos U2 -> sin U1 < 0 -> Rabs (sin U2) <= - sin U1 ->
  let r := Lambda12 g (sin U1) (cos U1) dn1 (sin U2) (cos U2) dn2 (sin lam) (cos lam) (sin lam) (cos lam) dp in
  let cs1 := cos lam * cos U1 in
  l_lam12 r = 0 /\ l_salp2 r = 0 /\ l_calp2 r = 1 /\ l_eps r = gd_n g /\ l_ssig1 r = sin U1 /\ l_csig1 r = cs1 /\ l_ssig2 r = sin U2 /\ l_csig2 r = cos U2 /\
  l_sig12 r = atan2 (Rmax 0.0 (cs1 * sin U2 - sin U1 * cos U2)) (cs1 * cos U2 + sin U1 * sin U2).
Proof.
  intros O Z C1 C2 N1 Le r cs1. pose proof (sc1 lam) as Q. rewrite Z in Q. assert (CL : cos lam ^ 2 = 1) by lra. clear Q.
  pose proof (sc1 U1) as Q1. pose proof (sc1 U2) as Q2. assert (Le2 : sin U2 ^ 2 <= sin U1 ^ 2) by (unfold Rabs in Le; destruct (Rcase_abs (sin U2)); nra).
  assert (CC : 0 < cos lam * (cos lam * (cos U1 * cos U2))) by (replace (cos lam * (cos lam * (cos U1 * cos U2))) with (cos lam ^ 2 * (cos U1 * cos U2)) by ring; rewrite CL; nra).
  assert (H0 : hypot (cos lam) (0 * sin U1) = 1) by (apply hypot_uniq; nra).
  assert (H1 : hypot (sin U1) (cos lam * cos U1) = 1) by (apply hypot_uniq; [lra|rewrite Rpow_mult_distr, CL; nra]).
  assert (SP : (if Req_EM_T (cos U2) (cos U1) then 0 else 0 * cos U1 / cos U2) = 0) by (destruct (Req_EM_T _ _); [reflexivity|unfold Rdiv; ring]).
  assert (CP : (if Req_EM_T (cos U2) (cos U1) then if Req_EM_T (Rabs (sin U2)) (- sin U1) then Rabs (cos lam) else sqrt ((cos lam * cos U1) ^ 2 + (sin U1 - sin U2) * (sin U1 + sin U2)) / cos U2 else sqrt ((cos lam * cos U1) ^ 2 + (cos U2 - cos U1) * (cos U1 + cos U2)) / cos U2) = 1).
  { assert (X : forall y, (cos lam * cos U1) ^ 2 + y = cos U2 ^ 2 -> sqrt ((cos lam * cos U1) ^ 2 + y) / cos U2 = 1) by (intros y ->; rewrite sqrt_pow2 by lra; field; lra).
    destruct (Req_EM_T (cos U2) (cos U1)) as [E|E]; [destruct (Req_EM_T _ _) as [E'|E']|].
    - rewrite <- sqrt_Rsqr_abs, Rsqr_pow2, CL. apply sqrt_1.
    - apply X. rewrite Rpow_mult_distr, CL. nra.
    - apply X. rewrite Rpow_mult_distr, CL. ring. }
  assert (H2 : hypot (sin U2) (1 * cos U2) = 1) by (apply hypot_uniq; [lra|rewrite Rmult_1_l; nra]).
  unfold r, Lambda12. cbv zeta. destruct (Req_EM_T (sin U1) 0) as [X|_]; [lra|]. rewrite Z, !Rmult_0_l.
  replace (0 / cos U2) with (0 * cos U1 / cos U2) by (unfold Rdiv; ring). rewrite SP. unfold norm2. rewrite CP, H1, H2.
  rewrite ?Rmult_0_l in H0. rewrite H0. unfold Rdiv. rewrite Rinv_1, !Rmult_1_r, !Rmult_1_l.
  cbn [l_lam12 l_salp2 l_calp2 l_sig12 l_ssig1 l_csig1 l_ssig2 l_csig2 l_eps].
  assert (E : eps_of (1 ^ 2 * gd_ep2 g) = gd_n g) by (replace (1 ^ 2 * gd_ep2 g) with (gd_ep2 g) by ring; now apply eps_n).
  rewrite E. repeat split.
  replace 0.0 with 0 by lra. replace (cos lam * cos U1 * 0 - 0) with 0 by ring. rewrite (Rmax_left 0 0) by lra.
  rewrite (atan2_unique (0 * cos lam - (cos lam * cos U1 * cos U2 + 0) * 0) ((cos lam * cos U1 * cos U2 + 0) * cos lam + 0 * 0) 0 (cos U1 * cos U2)); [ring|nra|pose proof PI_RGT_0; lra|rewrite sin_0; ring|rewrite cos_0; replace ((cos lam * cos U1 * cos U2 + 0) * cos lam + 0 * 0) with (cos lam ^ 2 * (cos U1 * cos U2)) by ring; rewrite CL; ring].
Qed.
(** What the canonical solver returns. *)
Lemma canon_form g A B L : oblate g -> -90 < A < 0 -> Rabs B <= - A -> k_tiny <= cos (radians A) ->
  (let '(sa, ca, r) := search g A B L in let '(sb1, cb1) := reduced g A in let '(sb2, cb2) := reduced g B in
   canon g A B L = (gd_b g * ((1 + A1m1f (l_eps r)) * (l_sig12 r + (SinCosSeries true (l_ssig2 r) (l_csig2 r) (arr (C1f (l_eps r))) nC1 - SinCosSeries true (l_ssig1 r) (l_csig1 r) (arr (C1f (l_eps r))) nC1))), (sa, ca), (l_salp2 r, l_calp2 r)))
  \/ (sin (radians L) = 0 /\ canon g A B L = (meridian_dist g A B L, (sin (radians L), cos (radians L)), (0, 1))).
Proof.
  intros O HA HB T. destruct (canon_setup g A B O HA HB T) as (U1 & U2 & E1 & E2 & C1 & C2 & R1 & R2 & N1 & Le & Fx).
  unfold search, canon, meridian_dist, equation. rewrite E1, E2. cbv zeta. rewrite Fx. unfold Inverse_core. cbv zeta.
  destruct (Req_EM_T (sin U1) 0) as [X|_]; [lra|].
  replace (-90) with (-(90)) by lra. destruct (Req_EM_T A (-(90))) as [X|_]; [lra|].
  match goal with |- context [InverseStart ?a ?b ?c ?d ?e ?f ?h ?i ?j ?k] => destruct (InverseStart a b c d e f h i j k) as [s0 c0] end.
  match goal with |- context [newton_loop ?a ?b ?c ?d] => destruct (newton_loop a b c d) as [[sa ca] r] end.
  unfold Lengths_out. cbv zeta. replace 1.0 with 1 by lra. replace 0.0 with 0 by lra.
  destruct (Req_EM_T (sin (radians L)) 0) as [Z|Z].
  - match goal with |- context [match (if ?c then Some _ else None) with Some _ => _ | None => _ end] => destruct c end.
    + right. split; [exact Z|]. rewrite Rmult_1_l. apply f_equal2; [apply f_equal2|]; [ring|reflexivity|reflexivity].
    + left. apply f_equal2; [apply f_equal2|]; [ring|reflexivity|reflexivity].
  - left. apply f_equal2; [apply f_equal2|]; [ring|reflexivity|reflexivity].
Qed.
(** The answer to the canonical problem describes a geodesic. *)
Lemma canon_conn g A B L v : oblate g -> gd_f g <= 1 / 100 -> -90 < A < 0 -> Rabs B <= - A -> k_tiny <= cos (radians A) ->
  settles g A B L v \/ (sin (radians L) = 0 /\ 0 <= v /\ canon g A B L = (meridian_dist g A B L, (sin (radians L), cos (radians L)), (0, 1))) ->
  let '(s, (sa1, ca1), (sa2, ca2)) := canon g A B L in
  sa1 ^ 2 + ca1 ^ 2 = 1 /\ sa2 ^ 2 + ca2 ^ 2 = 1 /\
  exists d lx, conn (gd_a g) (gd_b g) (radians A) (atan2 sa1 ca1) (radians B) (atan2 sa2 ca2) d lx /\
    Rabs (d - s) <= 80 * gd_b g * gd_n g ^ 7 /\ Rabs (lx - radians L) <= 208 * gd_n g ^ 7 + v.
Proof.
  intros O Hf HA HB T V. destruct (canon_setup g A B O HA HB T) as (U1 & U2 & E1 & E2 & C1 & C2 & R1 & R2 & N1 & Le & Fx).
  assert (MER : sin (radians L) = 0 -> 0 <= v -> canon g A B L = (meridian_dist g A B L, (sin (radians L), cos (radians L)), (0, 1)) ->
     let '(s, (sa1, ca1), (sa2, ca2)) := canon g A B L in
  sa1 ^ 2 + ca1 ^ 2 = 1 /\ sa2 ^ 2 + ca2 ^ 2 = 1 /\
  exists d lx, conn (gd_a g) (gd_b g) (radians A) (atan2 sa1 ca1) (radians B) (atan2 sa2 ca2) d lx /\
    Rabs (d - s) <= 80 * gd_b g * gd_n g ^ 7 /\ Rabs (lx - radians L) <= 208 * gd_n g ^ 7 + v).
  { intros Z V0 M. rewrite M.
    assert (Q : sin (radians L) ^ 2 + cos (radians L) ^ 2 = 1) by (pose proof (sc1 (radians L)); lra). split; [exact Q|]. split; [ring|].
    pose proof (lambda_geodesic g U1 U2 (sin (radians L)) (cos (radians L)) (radians L) (radians A) (radians B) 1 1 false O Hf C1 C2 R1 R2 Q ltac:(lra) N1 Le) as G.
    pose proof (lambda_meridian g U1 U2 (radians L) 1 1 false O Z C1 C2 N1 Le) as P. cbv zeta in G, P.
    destruct P as (P1 & P2 & P3 & P4 & P5 & P6 & P7 & P8 & P9). rewrite P1, P2, P3, P4, P5, P6, P7, P8, P9 in G. destruct G as (_ & d & lx & CN & D1 & D2).
    exists d, lx. split; [exact CN|]. unfold meridian_dist. rewrite E1, E2. split; [exact D1|]. rewrite Rplus_0_r in D2. lra. }
  destruct V as [V|(Z & V0 & M)]; [|now apply MER]. destruct (canon_form g A B L O HA HB T) as [M|(Z & M)].
  - unfold settles in V. pose proof (search_ok g A B L) as SO. destruct (search g A B L) as [[sa ca] r]. rewrite E1, E2 in M. rewrite M. clear M.
    destruct V as ((dp & Er) & Ev). unfold equation in Er. rewrite E1, E2 in Er. cbv zeta in Er. rewrite Fx in Er. destruct SO as [SP SU].
    split; [exact SU|].
    pose proof (lambda_geodesic g U1 U2 sa ca (radians L) (radians A) (radians B) (sqrt (1.0 + gd_ep2 g * sin U1 ^ 2)) (sqrt (1.0 + gd_ep2 g * sin U2 ^ 2)) dp O Hf C1 C2 R1 R2 SU ltac:(lra) N1 Le) as G.
    rewrite <- Er in G. destruct G as (U & d & lx & CN & D1 & D2). split; [exact U|]. exists d, lx. split; [exact CN|]. split; [exact D1|].
    replace (lx - radians L) with ((lx - (radians L + l_lam12 r)) + l_lam12 r) by ring. eapply Rle_trans; [apply Rabs_triang|]. lra.
  - apply MER; [exact Z| |exact M]. unfold settles in V. destruct (search g A B L) as [[sa ca] r]. destruct V as (_ & V). pose proof (Rabs_pos (l_lam12 r)). lra.
Qed.
