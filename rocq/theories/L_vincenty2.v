(** Lemmas on Vincenty's direct problem. *)
From Coq Require Import Lia Psatz.
From Coquelicot Require Import Coquelicot.
From Verif Require Import PyMath L_PyMath M_ellipsoid M_vincenty Spec L_ell L_vincenty.
Open Scope R_scope.

(** ** The coefficient B *)
Lemma vin_B_range u2 : 0 <= u2 <= 1 -> 0 <= vin_B u2 <= 1 / 4.
Proof.
  intros H. unfold vin_B. set (p := 256 + u2 * (-128 + u2 * (74 - 47 * u2))).
  assert (P : 0 <= p <= 256).
  { unfold p. assert (u2 ^ 2 <= u2) by nra. assert (0 <= u2 ^ 2) by nra. assert (0 <= u2 ^ 3 <= u2 ^ 2) by (split; nra).
    replace (256 + u2 * (-128 + u2 * (74 - 47 * u2))) with (256 - 128 * u2 + 74 * u2 ^ 2 - 47 * u2 ^ 3) by ring. lra. }
  split; [apply Rmult_le_pos; lra|]. nra.
Qed.
Lemma vin_A_range u2 : 0 <= u2 <= 1 -> 1 <= vin_A u2.
Proof.
  intros H. unfold vin_A. set (p := 4096 + u2 * (-768 + u2 * (320 - 175 * u2))).
  assert (P : 0 <= p) by (unfold p; nra). assert (0 <= u2 / 16384 * p) by (apply Rmult_le_pos; lra). lra.
Qed.

(** ** Delta sigma *)
Definition dsig (B s1 x : R) : R := vin_deltasigma B (sin x) (cos x) (cos (2 * s1 + x)).
Lemma sin_abs x : -1 <= sin x <= 1. Proof. apply SIN_bound. Qed.
Lemma cos_abs x : -1 <= cos x <= 1. Proof. apply COS_bound. Qed.
Lemma Rabs_mul_le x y m n : Rabs x <= m -> Rabs y <= n -> Rabs (x * y) <= m * n.
Proof. intros. rewrite Rabs_mult. apply Rmult_le_compat; auto using Rabs_pos. Qed.
Lemma Rabs_add_le x y m n : Rabs x <= m -> Rabs y <= n -> Rabs (x + y) <= m + n.
Proof. intros. eapply Rle_trans; [apply Rabs_triang|]. lra. Qed.
Lemma abs_sin x : Rabs (sin x) <= 1. Proof. apply Rabs_le, SIN_bound. Qed.
Lemma abs_cos x : Rabs (cos x) <= 1. Proof. apply Rabs_le, COS_bound. Qed.
Lemma abs_poly1 x : Rabs x <= 1 -> Rabs (-1 + 2 * x ^ 2) <= 1.
Proof. intros H. apply Rabs_le. assert (-1 <= x <= 1) by (split; unfold Rabs in H; destruct (Rcase_abs x); lra). nra. Qed.
Lemma abs_poly3 x : Rabs x <= 1 -> Rabs (-3 + 4 * x ^ 2) <= 3.
Proof. intros H. apply Rabs_le. assert (-1 <= x <= 1) by (split; unfold Rabs in H; destruct (Rcase_abs x); lra). nra. Qed.

Lemma dsig_bound B s1 x : 0 <= B <= 1 / 4 -> Rabs (dsig B s1 x) <= 2 / 3.
Proof.
  intros HB. unfold dsig, vin_deltasigma. set (s := sin x). set (c := cos x). set (c2 := cos (2 * s1 + x)).
  assert (S : Rabs s <= 1) by apply abs_sin. assert (C : Rabs c <= 1) by apply abs_cos. assert (D : Rabs c2 <= 1) by apply abs_cos.
  assert (T1 : Rabs (c * (-1 + 2 * c2 ^ 2)) <= 1) by (replace 1 with (1 * 1) by ring; apply Rabs_mul_le; [assumption|now apply abs_poly1]).
  assert (T2 : Rabs (c2 * (-3 + 4 * s ^ 2) * (-3 + 4 * c2 ^ 2)) <= 9).
  { replace 9 with (1 * 3 * 3) by ring. apply Rabs_mul_le; [apply Rabs_mul_le; [assumption|now apply abs_poly3]|now apply abs_poly3]. }
  replace (B / 6 * c2 * (-3 + 4 * s ^ 2) * (-3 + 4 * c2 ^ 2)) with (B / 6 * (c2 * (-3 + 4 * s ^ 2) * (-3 + 4 * c2 ^ 2))) by ring.
  set (t1 := c * (-1 + 2 * c2 ^ 2)) in *. set (t2 := c2 * (-3 + 4 * s ^ 2) * (-3 + 4 * c2 ^ 2)) in *.
  assert (AB : Rabs B <= 1 / 4) by (rewrite Rabs_right; lra).
  apply Rle_trans with (1 / 4 * 1 * (1 + (1 / 4) / 4 * (1 + (1 / 4) / 6 * 9))); [|lra].
  apply Rabs_mul_le; [apply Rabs_mul_le; assumption|]. apply Rabs_add_le; [assumption|].
  apply Rabs_mul_le; [unfold Rdiv; apply Rabs_mul_le; [assumption|rewrite Rabs_right; lra]|].
  unfold Rminus. apply Rabs_add_le; [assumption|]. rewrite Rabs_Ropp.
  apply Rabs_mul_le; [unfold Rdiv; apply Rabs_mul_le; [assumption|rewrite Rabs_right; lra]|assumption].
Qed.

Definition dsig' (B s1 x : R) : R :=
  let s := sin x in let c := cos x in let c2 := cos (2 * s1 + x) in let s2 := sin (2 * s1 + x) in
  B * c * (c2 + B / 4 * (c * (-1 + 2 * c2 ^ 2) - B / 6 * c2 * (-3 + 4 * s ^ 2) * (-3 + 4 * c2 ^ 2)))
  + B * s * (- s2 + B / 4 * (- s * (-1 + 2 * c2 ^ 2) - 4 * (c * c2) * s2
     - B / 6 * (- s2 * (-3 + 4 * s ^ 2) * (-3 + 4 * c2 ^ 2) + 8 * (c2 * (s * c)) * (-3 + 4 * c2 ^ 2) - 8 * (c2 * c2 * s2) * (-3 + 4 * s ^ 2)))).
Lemma D_dsig B s1 x : is_derive (dsig B s1) x (dsig' B s1 x).
Proof.
  unfold dsig, vin_deltasigma. auto_derive; [exact I|]. unfold dsig'. cbv zeta. field.
Qed.
Lemma dsig'_bound B s1 x : 0 <= B <= 1 / 4 -> Rabs (dsig' B s1 x) <= 2 / 3.
Proof.
  intros HB. unfold dsig'. cbv zeta. set (s := sin x). set (c := cos x). set (c2 := cos (2 * s1 + x)). set (s2 := sin (2 * s1 + x)).
  assert (S : Rabs s <= 1) by apply abs_sin. assert (C : Rabs c <= 1) by apply abs_cos. assert (D : Rabs c2 <= 1) by apply abs_cos.
  assert (S2 : Rabs s2 <= 1) by apply abs_sin.
  assert (AB : Rabs B <= 1 / 4) by (rewrite Rabs_right; lra).
  assert (AB4 : Rabs (B / 4) <= 1 / 16) by (rewrite Rabs_right; lra).
  assert (AB6 : Rabs (B / 6) <= 1 / 24) by (rewrite Rabs_right; lra).
  pose proof (abs_poly1 c2 D) as P1. pose proof (abs_poly3 c2 D) as P3. pose proof (abs_poly3 s S) as Q3.
  apply Rle_trans with (1 / 4 * 1 * (1 + 1 / 16 * (1 * 1 + 1 / 24 * 1 * 3 * 3))
    + 1 / 4 * 1 * (1 + 1 / 16 * (1 * 1 + 4 * (1 * 1) * 1 + 1 / 24 * (1 * 3 * 3 + 8 * (1 * (1 * 1)) * 3 + 8 * (1 * 1 * 1) * 3)))); [|lra].
  assert (R4 : Rabs 4 <= 4) by (rewrite Rabs_right; lra). assert (R8 : Rabs 8 <= 8) by (rewrite Rabs_right; lra).
  unfold Rminus.
  repeat first [assumption | rewrite Rabs_Ropp; assumption | apply Rabs_add_le | apply Rabs_mul_le
    | rewrite Rabs_Ropp ].
Qed.
Lemma dsig_lip B s1 x y : 0 <= B <= 1 / 4 -> Rabs (dsig B s1 y - dsig B s1 x) <= 2 / 3 * Rabs (y - x).
Proof.
  intros HB. destruct (MVT_gen (dsig B s1) x y (dsig' B s1)) as (c & _ & E).
  - intros z _. apply D_dsig.
  - intros z _. apply derivable_continuous_pt. exists (dsig' B s1 z). apply is_derive_Reals, D_dsig.
  - rewrite E, Rabs_mult. apply Rmult_le_compat_r; [apply Rabs_pos|]. apply dsig'_bound, HB.
Qed.

(** ** The while loop of vreckon is a contraction *)
Definition kB_ok (k : vreck) : Prop := 0 <= r_B k <= 1 / 4.
Lemma vreck_next_eq k b s : vreck_next k b s = b + dsig (r_B k) (r_sigma1 k) s.
Proof. reflexivity. Qed.
Lemma vreck_next_contract k b s t : kB_ok k -> Rabs (vreck_next k b t - vreck_next k b s) <= 2 / 3 * Rabs (t - s).
Proof.
  intros H. rewrite !vreck_next_eq. replace (b + _ - (b + _)) with (dsig (r_B k) (r_sigma1 k) t - dsig (r_B k) (r_sigma1 k) s) by ring.
  apply dsig_lip, H.
Qed.
Lemma pow23_70 : (2 / 3) ^ 70 <= 1 / 10 ^ 12.
Proof.
  replace 70%nat with (10 * 7)%nat by reflexivity. rewrite pow_mult.
  apply Rle_trans with ((1 / 57) ^ 7); [|lra]. apply pow_incr. split; [apply pow_le; lra|lra].
Qed.
Lemma pow23_mono m n : (m <= n)%nat -> (2 / 3) ^ n <= (2 / 3) ^ m.
Proof.
  intros H. replace n with (m + (n - m))%nat by lia. rewrite pow_add.
  assert (0 <= (2/3) ^ m) by (apply pow_le; lra).
  assert (0 <= (2/3) ^ (n - m) <= 1).
  { split; [apply pow_le; lra|]. rewrite <- (pow1 (n - m)). apply pow_incr. lra. }
  nra.
Qed.
(** Enough fuel: 70 passes, counting from a gap of at most (2/3)^m. *)
Lemma vreck_loop_ends k b : kB_ok k -> forall n m s, (71 <= n + m)%nat ->
  Rabs (vreck_next k b s - s) <= (2 / 3) ^ m ->
  (1 <= n)%nat -> exists sP s', vreck_loop n k b s = Some (sP, s') /\ s' = vreck_next k b sP /\ Rabs (s' - sP) <= 1 / 10 ^ 12.
Proof.
  intros HB. induction n as [|n IH]; intros m s Hn Hg H1; [lia|]. cbn [vreck_loop].
  destruct (Rlt_dec (1 / 10 ^ 12) (Rabs (vreck_next k b s - s))) as [G|G].
  - destruct (Nat.le_gt_cases 70 m) as [M|M].
    { exfalso. apply (Rlt_irrefl (1 / 10 ^ 12)). eapply Rlt_le_trans; [exact G|]. eapply Rle_trans; [exact Hg|]. eapply Rle_trans; [apply pow23_mono, M|exact pow23_70]. }
    apply (IH (S m)); [lia| |lia]. eapply Rle_trans; [apply vreck_next_contract, HB|]. simpl pow.
    apply Rmult_le_compat_l; [lra|exact Hg].
  - exists s, (vreck_next k b s). split; [reflexivity|]. split; [reflexivity|]. lra.
Qed.
Lemma vreck_loop_mono k b : forall n n' s r, (n <= n')%nat -> vreck_loop n k b s = Some r -> vreck_loop n' k b s = Some r.
Proof.
  induction n as [|n IH]; intros n' s r Hn E; [discriminate|]. destruct n' as [|n']; [lia|]. cbn [vreck_loop] in *.
  destruct (Rlt_dec _ _); [|exact E]. apply IH; [lia|exact E].
Qed.
Lemma vreck_loop_total k b n s : kB_ok k -> Rabs (vreck_next k b s - s) <= 1 -> (71 <= n)%nat ->
  exists sP s', vreck_loop n k b s = Some (sP, s') /\ s' = vreck_next k b sP /\ Rabs (s' - sP) <= 1 / 10 ^ 12.
Proof. intros HB H Hn. apply (vreck_loop_ends k b HB n 0); [lia|simpl; exact H|lia]. Qed.
Lemma first_gap k b : kB_ok k -> Rabs (vreck_next k b b - b) <= 1.
Proof.
  intros H. rewrite vreck_next_eq. replace (b + _ - b) with (dsig (r_B k) (r_sigma1 k) b) by ring.
  eapply Rle_trans; [apply dsig_bound, H|lra].
Qed.

(** Arrays of ranges. *)
Definition gaps_le (k : vreck) (bs ss : list R) (g : R) : Prop :=
  List.length bs = List.length ss /\ Forall (fun '(b, s) => Rabs (vreck_next k b s - s) <= g) (combine bs ss).
Lemma gaps_step k : kB_ok k -> forall bs ss g, gaps_le k bs ss g ->
  gaps_le k bs (map (fun '(b, s) => vreck_next k b s) (combine bs ss)) (2 / 3 * g).
Proof.
  intros HB bs. induction bs as [|b bs IH]; intros [|s ss] g [L F]; cbn in L; try discriminate.
  - split; [reflexivity|constructor].
  - cbn [combine] in F. inversion F as [|x l F1 F2]; subst.
    destruct (IH ss g) as [L' F']; [split; [lia|exact F2]|]. split; [cbn; f_equal; exact L'|].
    cbn [combine map]. constructor; [|exact F']. eapply Rle_trans; [apply vreck_next_contract, HB|].
    apply Rmult_le_compat_l; [lra|exact F1].
Qed.
Lemma existsb_gap_false k : forall bs ss g, g <= 1 / 10 ^ 12 -> gaps_le k bs ss g ->
  existsb (fun '(s', s) => if Rlt_dec (1 / 10 ^ 12) (Rabs (s' - s)) then true else false)
    (combine (map (fun '(b, s) => vreck_next k b s) (combine bs ss)) ss) = false.
Proof.
  induction bs as [|b bs IH]; intros [|s ss] g Hg [L F]; cbn in L; try discriminate; [reflexivity|].
  cbn [combine] in F. inversion F as [|x l F1 F2]; subst. cbn [combine map existsb].
  rewrite (IH ss g Hg) by (split; [lia|exact F2]). destruct (Rlt_dec _ _) as [G|G]; [lra|reflexivity].
Qed.
Lemma vreck_loop_array_ends k : kB_ok k -> forall n m bs ss, (71 <= n + m)%nat -> (1 <= n)%nat ->
  gaps_le k bs ss ((2 / 3) ^ m) ->
  exists l, vreck_loop_array n k bs ss = Some l /\ List.length l = List.length bs /\
    Forall2 (fun b '(sP, s') => s' = vreck_next k b sP /\ Rabs (s' - sP) <= 1 / 10 ^ 12) bs l.
Proof.
  intros HB. induction n as [|n IH]; intros m bs ss Hn H1 G; [lia|]. cbn [vreck_loop_array].
  match goal with |- context [if ?c then _ else _] => destruct c eqn:E end.
  - destruct (Nat.le_gt_cases 70 m) as [M|M].
    { exfalso. rewrite (existsb_gap_false k bs ss _ ltac:(eapply Rle_trans; [apply (pow23_mono 70 m M)|apply pow23_70]) G) in E. discriminate. }
    apply (IH (S m)); [lia|lia|]. simpl pow. apply gaps_step; assumption.
  - eexists. split; [reflexivity|]. destruct G as [L _]. clear - E L. revert ss L E. induction bs as [|b bs IH]; intros [|s ss] L E; cbn in L; try discriminate.
    + split; [reflexivity|constructor].
    + cbn [combine map existsb] in *. apply orb_false_iff in E. destruct E as [E1 E2].
      destruct (IH ss ltac:(lia) E2) as [L' F']. split; [cbn; f_equal; exact L'|]. constructor; [|exact F'].
      split; [reflexivity|]. destruct (Rlt_dec _ _); [discriminate|lra].
Qed.

(** ** The start point data *)
Lemma cosU_eq f lat : 1 / sqrt (1 + ((1 - f) * tan lat) ^ 2) = cos (reduced_lat f lat).
Proof. unfold reduced_lat. rewrite cos_atan'. reflexivity. Qed.
Lemma sinU_eq f lat : (1 - f) * tan lat * cos (reduced_lat f lat) = sin (reduced_lat f lat).
Proof. unfold reduced_lat. rewrite cos_atan', sin_atan'. unfold Rdiv. ring. Qed.
Lemma vreck_init_eq a b f lat az : vreck_init a b f lat az =
  (let U := reduced_lat f lat in let sA := cos U * sin az in let u2 := (1 - sA * sA) * (a ^ 2 - b ^ 2) / b ^ 2 in
   mkVreck (sin az) (cos az) (cos U) (sin U) (atan2 ((1 - f) * tan lat) (cos az)) sA (1 - sA * sA) (vin_A u2) (vin_B u2)).
Proof. unfold vreck_init. cbv zeta. rewrite !cosU_eq, sinU_eq. reflexivity. Qed.
Lemma vreck_init_ok a b f lat az : 0 < b -> b <= a -> a ^ 2 <= 2 * b ^ 2 ->
  kB_ok (vreck_init a b f lat az) /\ 1 <= r_A (vreck_init a b f lat az).
Proof.
  intros Hb Hab H2. rewrite vreck_init_eq. cbv zeta. unfold kB_ok. cbn [r_B r_A].
  set (sA := cos _ * sin az).
  assert (S : 0 <= sA * sA <= 1).
  { split; [apply Rle_0_sqr|]. pose proof (abs_cos (reduced_lat f lat)). pose proof (abs_sin az).
    assert (Rabs sA <= 1) by (replace 1 with (1 * 1) by ring; apply Rabs_mul_le; assumption).
    replace (sA * sA) with (Rabs sA * Rabs sA) by (rewrite <- Rabs_mult; apply Rabs_right, Rle_ge, Rle_0_sqr).
    pose proof (Rabs_pos sA). nra. }
  assert (Bp : 0 < b ^ 2) by (apply pow_lt; lra).
  assert (Q : 0 <= (a ^ 2 - b ^ 2) / b ^ 2 <= 1).
  { split; [apply Rmult_le_pos; [|left; apply Rinv_0_lt_compat; lra]; assert (b ^ 2 <= a ^ 2) by (apply pow_incr; lra); lra|].
    apply Rmult_le_reg_r with (b ^ 2); [lra|]. unfold Rdiv. rewrite Rmult_assoc, Rinv_l by lra. lra. }
  assert (U : 0 <= (1 - sA * sA) * (a ^ 2 - b ^ 2) / b ^ 2 <= 1).
  { replace ((1 - sA * sA) * (a ^ 2 - b ^ 2) / b ^ 2) with ((1 - sA * sA) * ((a ^ 2 - b ^ 2) / b ^ 2)) by (unfold Rdiv; ring). split; [apply Rmult_le_pos; lra|nra]. }
  split; [apply vin_B_range, U|apply vin_A_range, U].
Qed.
Lemma vreck_end_lat_range f lon k sP s : f <= 1 -> - PI/2 <= fst (vreck_end f lon k sP s) <= PI/2.
Proof.
  intros Hf. unfold vreck_end. cbv zeta. cbn [fst]. apply atan2_right.
  apply Rmult_le_pos; [lra|apply sqrt_pos].
Qed.
Lemma vreck_end_lon_range f lon k sP s : 0 <= snd (vreck_end f lon k sP s) < tau.
Proof. unfold vreck_end. cbv zeta. cbn [snd]. apply py_mod_range, tau_pos. Qed.
