(** Lemmas for utils.py, mathfun.py fallbacks and ellipsoid construction. *)
From Coq Require Import Lia Psatz.
From Verif Require Import PyMath L_PyMath M_ellipsoid M_utils Spec L_ell L_frames L_aer.
Open Scope R_scope.

Lemma pol_cart_pol x y : let '(t, r) := cart2pol x y in pol2cart t r = (x, y).
Proof. unfold cart2pol, pol2cart. now rewrite hypot_cos_atan2, hypot_sin_atan2. Qed.
Lemma cart_pol_cart t r : 0 < r -> - PI < t <= PI ->
  let '(x, y) := pol2cart t r in cart2pol x y = (t, r).
Proof.
  intros Hr Ht. unfold cart2pol, pol2cart. now rewrite atan2_polar, hypot_polar by lra.
Qed.
Lemma sph_cart_sph x y z : let '(az, el, r) := cart2sph x y z in sph2cart az el r = (x, y, z).
Proof.
  unfold cart2sph, sph2cart. rewrite hypot_cos_atan2, hypot_sin_atan2.
  now rewrite hypot_cos_atan2, hypot_sin_atan2.
Qed.
Lemma cart_sph_cart az el r : 0 < r -> - PI < az <= PI -> - PI / 2 < el < PI / 2 ->
  let '(x, y, z) := sph2cart az el r in cart2sph x y z = (az, el, r).
Proof.
  intros Hr Ha He. unfold cart2sph, sph2cart.
  assert (0 < cos el) by (apply cos_gt_0; lra). assert (0 < r * cos el) by nra.
  rewrite hypot_polar by lra. rewrite hypot_polar by lra.
  rewrite (atan2_polar r el) by (pose proof PI_RGT_0; lra).
  now rewrite (atan2_polar (r * cos el) az) by lra.
Qed.
Lemma cart2sph_ranges x y z : let '(az, el, r) := cart2sph x y z in
  - PI < az <= PI /\ - PI / 2 <= el <= PI / 2 /\ r = vnorm (x, y, z).
Proof.
  unfold cart2sph. split; [apply atan2_range|]. split; [apply atan2_right, hypot_nonneg|].
  unfold vnorm, vdot. apply hypot_uniq; [apply sqrt_pos|].
  rewrite sqrt_sqrt by nra. rewrite hypot_pow2. ring.
Qed.

(** linspace *)
Lemma linspace_spec start stop num l : (1 < num)%Z -> linspace start stop num = Ok l ->
  Z.of_nat (List.length l) = num /\
  (forall i, (i < List.length l)%nat ->
     nth i l 0 = start + INR i / INR (List.length l - 1) * (stop - start)).
Proof.
  intros Hn. unfold linspace. destruct (Z.eqb_spec (num - 1) 0); [lia|]. intros E. injection E as <-.
  rewrite map_length, seq_length. split; [lia|]. intros i Hi.
  rewrite nth_indep with (d' := start + INR 0 * ((stop - start) / IZR (num - 1))) by (now rewrite map_length, seq_length).
  rewrite (map_nth (fun i => start + INR i * ((stop - start) / IZR (num - 1)))).
  rewrite seq_nth by lia.
  replace (INR (Z.to_nat num - 1)) with (IZR (num - 1)).
  - cbn [Nat.add]. field. apply not_0_IZR. lia.
  - rewrite INR_IZR_INZ. f_equal. lia.
Qed.

Lemma sign_spec x : (x < 0 -> sign_fallback x = -1) /\ (x = 0 -> sign_fallback x = 0) /\
  (0 < x -> sign_fallback x = 1).
Proof. unfold sign_fallback. repeat split; intros; repeat destruct (Rlt_dec _ _); lra. Qed.

Lemma py_pow_third_cube x : 0 <= x -> py_pow_third x ^ 3 = x /\ 0 <= py_pow_third x.
Proof.
  intros Hx. unfold py_pow_third. destruct (Req_EM_T x 0) as [->|Hn]; [split; [ring|lra]|]. split.
  - rewrite <- Rpower_pow by apply exp_pos. rewrite Rpower_mult.
    replace (1/3 * INR 3) with 1 by (cbn; lra). apply Rpower_1. lra.
  - left. apply exp_pos.
Qed.
Lemma cube_root_cube x : cube_root x ^ 3 = x.
Proof.
  unfold cube_root. destruct (Rlt_dec x 0).
  - destruct (py_pow_third_cube (-x)) as [E _]; [lra|].
    replace ((- py_pow_third (-x))^3) with (- (py_pow_third (-x) ^ 3)) by ring. rewrite E. ring.
  - apply py_pow_third_cube. lra.
Qed.

(** ellipsoids *)
Lemma init_prolate a b name model : 0 < a -> a < b ->
  Ellipsoid_init a b name model None None None = Raise AssertionError.
Proof.
  intros Ha Hb. unfold Ellipsoid_init, py_div, bind.
  destruct (Req_EM_T a 0); [lra|].
  destruct (Rlt_dec ((a - b) / a) 0) as [|N]; [reflexivity|]. exfalso. apply N.
  apply Ropp_lt_cancel. rewrite Ropp_0. replace (- ((a-b)/a)) with ((b-a)/a) by (field; lra).
  apply Rdiv_lt_0_compat; lra.
Qed.
Lemma lookup_in name v l : lookup_model l name = Ok v -> In (name, v) l.
Proof.
  induction l as [|[k w] l IH]; cbn; [discriminate|].
  destruct (String.eqb_spec k name) as [->|]; intros E; [left; congruence|right; auto].
Qed.
Lemma lookup_some name l : In name (map fst l) -> exists v, lookup_model l name = Ok v.
Proof.
  induction l as [|[k w] l IH]; cbn; [tauto|]. intros Hin.
  destruct (String.eqb_spec k name) as [->|Hne]; [eauto|]. destruct Hin; [congruence|auto].
Qed.
Lemma lookup_none name l : ~ In name (map fst l) -> lookup_model l name = Raise KeyError.
Proof.
  induction l as [|[k w] l IH]; cbn; [reflexivity|]. intros Hn.
  destruct (String.eqb_spec k name) as [->|Hne]; [tauto|auto].
Qed.
Lemma models_axes : Forall (fun '(_, (_, a, b)) => 0 < b /\ b <= a) models.
Proof. unfold models. repeat (apply Forall_cons; [lra|]). apply Forall_nil. Qed.
Lemma from_name_ok name : In name (map fst models) ->
  exists pname a b e, In (name, (pname, a, b)) models /\ from_name name = Ok e /\ valid_ell e /\
    semimajor_axis e = a /\ semiminor_axis e = b /\ ell_model e = name /\ ell_name e = pname.
Proof.
  intros Hin. destruct (lookup_some _ _ Hin) as [[[pname a] b] Hl].
  pose proof (lookup_in _ _ _ Hl) as HI. pose proof models_axes as HF.
  rewrite Forall_forall in HF. specialize (HF _ HI). cbn in HF. destruct HF as [Hb Ha].
  destruct (init_valid a b pname name Hb Ha) as (e & E & V & Ea & Eb & En & Em).
  exists pname, a, b, e. unfold from_name. rewrite Hl. cbn [bind]. tauto.
Qed.
Lemma wgs84_from_name : from_name "wgs84" = Ok wgs84.
Proof.
  unfold from_name, bind. 
  replace (lookup_model models "wgs84") with (Ok ("WGS-84 (1984)"%string, 6378137.0, 6356752.31424518) : result (string*R*R)) by reflexivity.
  unfold Ellipsoid_init, py_div, bind, math_sqrt, wgs84.
  destruct (Req_EM_T 6378137.0 0); [lra|].
  destruct (Rlt_dec _ 0); [lra|]. destruct (Req_EM_T _ 0); [lra|].
  destruct (Rlt_dec _ 0) as [K|]; [|reflexivity]. exfalso.
  pose proof (ecc_sq 6378137.0 6356752.31424518 ltac:(lra) ltac:(lra)) as E. rewrite E in K.
  pose proof (ecc_sq_range 6378137.0 6356752.31424518 ltac:(lra) ltac:(lra)). lra.
Qed.
Lemma models_flat : Forall (fun '(_, (_, a, b)) => 0 < b /\ b <= a /\ 9 * a <= 10 * b) models.
Proof. unfold models. repeat (apply Forall_cons; [lra|]). apply Forall_nil. Qed.
Lemma from_name_flat name e : from_name name = Ok e ->
  valid_ell e /\ 9 * semimajor_axis e <= 10 * semiminor_axis e.
Proof.
  unfold from_name. destruct (lookup_model models name) as [[[pname a] b]|x] eqn:Hl; [|discriminate].
  pose proof (lookup_in _ _ _ Hl) as HI. pose proof models_flat as HF.
  rewrite Forall_forall in HF. specialize (HF _ HI). cbn in HF. destruct HF as (Hb & Ha & Hf).
  destruct (init_valid a b pname name Hb Ha) as (e' & E & V & Ea & Eb & _).
  cbn [bind]. intros E'. rewrite E in E'. injection E' as <-. rewrite Ea, Eb. tauto.
Qed.
