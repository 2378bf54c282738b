(** Facts about ellipsoid parameters. *)
From Coq Require Import Lia Psatz.
From Verif Require Import PyMath L_PyMath M_ellipsoid Spec.
Open Scope R_scope.

Ltac tring1 x := let H := fresh "Ht" in pose proof (sin_sq x) as H; ring [H].
Ltac tring2 x y := let H := fresh "Ht" in let H' := fresh "Ht" in
  pose proof (sin_sq x) as H; pose proof (sin_sq y) as H'; ring [H H'].
Ltac tring3 x y z := let H := fresh "Ht" in let H' := fresh "Ht" in let H'' := fresh "Ht" in
  pose proof (sin_sq x) as H; pose proof (sin_sq y) as H'; pose proof (sin_sq z) as H'';
  ring [H H' H''].

Lemma as_rad_rad_in d x : as_rad d x = rad_in d x.
Proof. destruct d; reflexivity. Qed.

Lemma resolve_a ell : semimajor_axis (resolve_ellipsoid ell) = ell_a ell.
Proof. destruct ell; [reflexivity|]. cbn. lra. Qed.
Lemma resolve_b ell : semiminor_axis (resolve_ellipsoid ell) = ell_b ell.
Proof. destruct ell; [reflexivity|]. cbn. lra. Qed.

Lemma ecc_sq a b : 0 < b -> b <= a ->
  2 * ((a - b) / a) - ((a - b) / a) ^ 2 = 1 - b ^ 2 / a ^ 2.
Proof. intros. field. lra. Qed.

Lemma ecc_sq_range a b : 0 < b -> b <= a -> 0 <= 1 - b ^ 2 / a ^ 2 < 1.
Proof.
  intros Hb Ha. assert (0 < b ^ 2 / a ^ 2).
  { apply Rdiv_lt_0_compat; apply pow_lt; lra. }
  assert (b ^ 2 / a ^ 2 <= 1).
  { apply Rmult_le_reg_r with (a ^ 2); [apply pow_lt; lra|].
    unfold Rdiv. rewrite Rmult_assoc, Rinv_l by (apply pow_nonzero; lra). nra. }
  lra.
Qed.

(** Construction without overrides yields a consistent ellipsoid. *)
Lemma init_valid a b name model : 0 < b -> b <= a ->
  exists e, Ellipsoid_init a b name model None None None = Ok e /\ valid_ell e
    /\ semimajor_axis e = a /\ semiminor_axis e = b /\ ell_name e = name /\ ell_model e = model.
Proof.
  intros Hb Ha. unfold Ellipsoid_init, bind, py_div.
  destruct (Req_EM_T a 0); [lra|].
  assert (Hf : 0 <= (a - b) / a).
  { apply Rmult_le_pos; [lra|]. left. apply Rinv_0_lt_compat. lra. }
  destruct (Rlt_dec ((a - b) / a) 0); [lra|].
  destruct (Req_EM_T (a + b) 0); [lra|].
  unfold math_sqrt. pose proof (ecc_sq_range a b Hb Ha) as [He He'].
  rewrite ecc_sq by assumption.
  destruct (Rlt_dec (1 - b ^ 2 / a ^ 2) 0); [lra|].
  eexists. split; [reflexivity|]. unfold valid_ell; cbn [semimajor_axis semiminor_axis
    flattening thirdflattening eccentricity ell_name ell_model].
  repeat split; try assumption; try reflexivity; try lra.
  - apply sqrt_pos.
  - rewrite pow2_sqrt'; [reflexivity|assumption].
Qed.

Lemma wgs84_valid : valid_ell wgs84.
Proof.
  unfold valid_ell, wgs84; cbn [semimajor_axis semiminor_axis
    flattening thirdflattening eccentricity].
  repeat split; try lra.
  - apply sqrt_pos.
  - rewrite pow2_sqrt'; rewrite ecc_sq by lra; [reflexivity|].
    apply ecc_sq_range; lra.
Qed.

Lemma resolve_valid ell : ell_ok ell -> valid_ell (resolve_ellipsoid ell).
Proof. destruct ell; [trivial|]. intros _. apply wgs84_valid. Qed.

Lemma ell_pos ell : ell_ok ell -> 0 < ell_b ell /\ ell_b ell <= ell_a ell.
Proof.
  intros H. apply resolve_valid in H. destruct H as (H1 & H2 & _).
  rewrite resolve_a, resolve_b in *. tauto.
Qed.

Lemma ell_e2 ell : ell_ok ell ->
  eccentricity (resolve_ellipsoid ell) ^ 2 = 1 - ell_b ell ^ 2 / ell_a ell ^ 2.
Proof.
  intros H. apply resolve_valid in H. destruct H as (_ & _ & _ & _ & _ & H).
  now rewrite resolve_a, resolve_b in H.
Qed.
Lemma ell_e_nonneg ell : ell_ok ell -> 0 <= eccentricity (resolve_ellipsoid ell).
Proof. intros H. apply resolve_valid in H. apply H. Qed.
Lemma ell_f ell : ell_ok ell ->
  flattening (resolve_ellipsoid ell) = (ell_a ell - ell_b ell) / ell_a ell.
Proof.
  intros H. apply resolve_valid in H. destruct H as (_ & _ & H & _).
  now rewrite resolve_a, resolve_b in H.
Qed.
Lemma ell_n ell : ell_ok ell ->
  thirdflattening (resolve_ellipsoid ell)
    = (ell_a ell - ell_b ell) / (ell_a ell + ell_b ell).
Proof.
  intros H. apply resolve_valid in H. destruct H as (_ & _ & _ & H & _).
  now rewrite resolve_a, resolve_b in H.
Qed.

(** a cos, b sin is never the zero vector. *)
Lemma acbs_pos a b t : 0 < b -> b <= a -> 0 < hypot (a * cos t) (b * sin t).
Proof.
  intros Hb Ha. apply hypot_pos.
  destruct (Req_dec (cos t) 0) as [Hc|Hc].
  - right. pose proof (sc1 t) as H. rewrite Hc in H. intros E.
    assert (sin t = 0) by (apply Rmult_eq_reg_l with b; lra). rewrite H0 in H. lra.
  - left. intros E. apply Hc. apply Rmult_eq_reg_l with a; lra.
Qed.

(** Examples used to show that hypotheses can be met. *)
Definition ex_ell : Ellipsoid := mkEllipsoid "" "" 5 4 (1/5) (1/9) (3/5).
Lemma ex_ell_valid : valid_ell ex_ell.
Proof.
  unfold valid_ell, ex_ell; cbn [semimajor_axis semiminor_axis
    flattening thirdflattening eccentricity]. repeat split; lra.
Qed.
Lemma ex_ell_ok : ell_ok (Some ex_ell).
Proof. exact ex_ell_valid. Qed.
