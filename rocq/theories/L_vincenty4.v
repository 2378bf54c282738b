(** Lemmas on vreckon, the array forms and track2. *)
From Coq Require Import Lia Psatz.
From Coquelicot Require Import Coquelicot.
From Verif Require Import PyMath L_PyMath M_ellipsoid M_vincenty Spec L_ell L_aer L_nvector L_vincenty L_vincenty2 L_vincenty3.
From Verif Require L_lox L_ecef.
Open Scope R_scope.

(** ** vreckon opened up *)
Definition vk (ell : option Ellipsoid) (lat az : R) : vreck :=
  vreck_init (ell_a ell) (ell_b ell) (flattening (resolve_ellipsoid ell)) (nudge_pole lat) az.
Definition vbase (ell : option Ellipsoid) (lat az rng : R) : R := rng / (ell_b ell * r_A (vk ell lat az)).
Lemma vreckon_ok fuel lat1 lon1 rng az ell deg : 0 <= rng -> - quarter deg <= lat1 <= quarter deg ->
  vreckon fuel lat1 lon1 rng az ell deg =
  (let k := vk ell (rad_in deg lat1) (rad_in deg az) in
   let base := vbase ell (rad_in deg lat1) (rad_in deg az) rng in
   if Rlt_dec (1 / 10 ^ 12) (Rabs (base - 2 * PI)) then
     match vreck_loop fuel k base base with
     | None => None
     | Some (sP, s) => let '(lat2, lon2) := vreck_end (flattening (resolve_ellipsoid ell)) (rad_in deg lon1) k sP s in
                      Some (Ok (Some (deg_out deg lat2, deg_out deg lon2)))
     end
   else Some (Ok None)).
Proof.
  intros H1 H2. apply rad_in_bounds in H2. apply out_of_range_false in H2. unfold vreckon.
  destruct (Rlt_dec rng 0); [lra|]. rewrite H2, resolve_a, resolve_b. reflexivity.
Qed.
Lemma vreckon_neg fuel lat1 lon1 rng az ell deg : rng < 0 -> vreckon fuel lat1 lon1 rng az ell deg = Some (Raise ValueError).
Proof. intros H. unfold vreckon. destruct (Rlt_dec rng 0); [reflexivity|lra]. Qed.
Lemma vreckon_badlat fuel lat1 lon1 rng az ell deg : ~ (- quarter deg <= lat1 <= quarter deg) ->
  vreckon fuel lat1 lon1 rng az ell deg = Some (Raise ValueError).
Proof.
  intros H. unfold vreckon. destruct (Rlt_dec rng 0); [reflexivity|].
  destruct (lat_out_of_range (rad_in deg lat1)) eqn:E; [reflexivity|]. exfalso. apply H, rad_in_bounds, out_of_range_false, E.
Qed.

(** ** Range zero *)
Lemma vreck_next_0 k : vreck_next k 0 0 = 0.
Proof. unfold vreck_next, vin_deltasigma. rewrite sin_0. ring. Qed.
Lemma vreck_loop_0 n k : vreck_loop (S n) k 0 0 = Some (0, 0).
Proof. cbn [vreck_loop]. rewrite vreck_next_0, no_gap. destruct (Rlt_dec _ 0) as [X|X]; [pose proof e12; lra|reflexivity]. Qed.
Lemma reduced_cos_pos f lat : 0 < cos (reduced_lat f lat).
Proof. pose proof (reduced_range f lat). apply cos_gt_0; lra. Qed.
Lemma reduced_tan f lat : sin (reduced_lat f lat) = (1 - f) * tan lat * cos (reduced_lat f lat).
Proof. symmetry. apply sinU_eq. Qed.
Lemma vreck_end_0 a b f lat lon az : f < 1 -> - PI/2 < lat < PI/2 ->
  vreck_end f lon (vreck_init a b f lat az) 0 0 = (lat, py_mod lon tau).
Proof.
  intros Hf Hl. rewrite vreck_init_eq. cbv zeta. unfold vreck_end. cbv zeta.
  cbn [r_sinAlpha1 r_cosAlpha1 r_cosU1 r_sinU1 r_sigma1 r_sinAlpha r_cosSqAlpha]. rewrite sin_0, cos_0.
  pose proof (reduced_cos_pos f lat) as C. pose proof (reduced_tan f lat) as T. set (U := reduced_lat f lat) in *.
  apply pair_equal_spec. split.
  - replace (sqrt (cos U * sin az * (cos U * sin az) + (sin U * 0 - cos U * 1 * cos az) ^ 2)) with (cos U).
    2: { symmetry. apply sqrt_uniq; [lra|]. pose proof (sc1 az) as S.
         replace (cos U * sin az * (cos U * sin az) + (sin U * 0 - cos U * 1 * cos az) ^ 2) with (cos U * cos U * (sin az * sin az + cos az * cos az)) by ring. rewrite S. ring. }
    replace (sin U * 1 + cos U * 0 * cos az) with (sin U) by ring. rewrite atan2_pos by nra. rewrite T.
    replace ((1 - f) * tan lat * cos U / ((1 - f) * cos U)) with (tan lat) by (field; split; lra). now apply atan_tan_id.
  - replace (cos U * 1 - sin U * 0 * cos az) with (cos U) by ring. replace (0 * sin az) with 0 by ring.
    rewrite atan2_pos by exact C. unfold Rdiv at 1. rewrite Rmult_0_l, atan_0. f_equal. ring.
Qed.

(** ** The sphere *)
Definition gc_move (U l az s : R) : vec3 :=
  vadd (vscale (cos s) (unit_normal U l)) (vscale (sin s) (vadd (vscale (cos az) (north_axis U l)) (vscale (sin az) (east_axis U l)))).
Lemma vk_sphere ell lat az : ell_ok ell -> ell_a ell = ell_b ell -> - (PI/2) <= lat <= PI/2 ->
  exists s1, vk ell lat az = (let U := nudge_pole lat in let sA := cos U * sin az in
    mkVreck (sin az) (cos az) (cos U) (sin U) s1 sA (1 - sA * sA) 1 0).
Proof.
  intros H E B. unfold vk. rewrite vreck_init_eq, (sphere_f ell H E), <- E. cbv zeta.
  pose proof (nudge_range _ B) as Nn. pose proof ten10. rewrite !reduced_sphere by lra.
  match goal with |- context [vin_A ?u] => replace u with 0 by (unfold Rdiv; ring) end.
  rewrite vin_A_0, vin_B_0. eexists. reflexivity.
Qed.
Lemma gc_identity U az s : 
  (sin U * cos s + cos U * sin s * cos az) ^ 2 + ((cos U * sin az) * (cos U * sin az) + (sin U * sin s - cos U * cos s * cos az) ^ 2) = 1 /\
  (sin s * sin az) ^ 2 + (cos U * cos s - sin U * sin s * cos az) ^ 2
    = (cos U * sin az) * (cos U * sin az) + (sin U * sin s - cos U * cos s * cos az) ^ 2.
Proof.
  pose proof (sc1 U) as A. pose proof (sc1 az) as B. pose proof (sc1 s) as C. split.
  - replace ((sin U * cos s + cos U * sin s * cos az) ^ 2 + (cos U * sin az * (cos U * sin az) + (sin U * sin s - cos U * cos s * cos az) ^ 2))
      with ((sin U * sin U) * (sin s * sin s + cos s * cos s) + cos U * cos U * (cos az * cos az * (sin s * sin s + cos s * cos s) + sin az * sin az)) by ring.
    rewrite C. replace (cos az * cos az * 1 + sin az * sin az) with (sin az * sin az + cos az * cos az) by ring. rewrite B. lra.
  - replace ((sin s * sin az) ^ 2) with (sin s * sin s * (sin az * sin az)) by ring.
    replace ((cos U * cos s - sin U * sin s * cos az) ^ 2) with (cos U * cos U * (cos s * cos s) - 2 * cos U * cos s * sin U * sin s * cos az + sin U * sin U * (sin s * sin s) * (cos az * cos az)) by ring.
    replace ((sin U * sin s - cos U * cos s * cos az) ^ 2) with (sin U * sin U * (sin s * sin s) - 2 * cos U * cos s * sin U * sin s * cos az + cos U * cos U * (cos s * cos s) * (cos az * cos az)) by ring.
    replace (cos U * sin az * (cos U * sin az)) with (cos U * cos U * (sin az * sin az)) by ring.
    replace (sin U * sin U) with (1 - cos U * cos U) by lra. replace (sin az * sin az) with (1 - cos az * cos az) by lra.
    replace (sin s * sin s) with (1 - cos s * cos s) by lra. ring.
Qed.
Lemma vreck_end_sphere U l az s s1 c A B : 
  let '(lat, lon) := vreck_end 0 l (mkVreck (sin az) (cos az) (cos U) (sin U) s1 (cos U * sin az) c A B) s s in
  unit_normal lat lon = gc_move U l az s.
Proof.
  unfold vreck_end. cbv zeta. cbn [r_sinAlpha1 r_cosAlpha1 r_cosU1 r_sinU1 r_sigma1 r_sinAlpha r_cosSqAlpha].
  destruct (gc_identity U az s) as [I1 I2].
  set (z := sin U * cos s + cos U * sin s * cos az) in *. set (w := cos U * sin az * (cos U * sin az) + (sin U * sin s - cos U * cos s * cos az) ^ 2) in *.
  replace ((1 - 0) * sqrt w) with (sqrt w) by ring.
  assert (W0 : 0 <= w) by (unfold w; apply Rplus_le_le_0_compat; [apply Rle_0_sqr|apply pow2_ge_0]).
  pose proof (sqrt_pos w) as SP. pose proof (pow2_sqrt w W0) as SQ.
  assert (H1 : hypot (sqrt w) z = 1) by (apply hypot_uniq; [lra|rewrite SQ; lra]).
  pose proof (hypot_cos_atan2 z (sqrt w)) as C1. pose proof (hypot_sin_atan2 z (sqrt w)) as S1. rewrite H1, Rmult_1_l in C1, S1.
  set (y := sin s * sin az) in *. set (x := cos U * cos s - sin U * sin s * cos az) in *.
  assert (H2 : hypot x y = sqrt w) by (apply hypot_uniq; [exact SP|rewrite <- Rsqr_pow2 in SQ; unfold Rsqr in SQ; rewrite SQ; rewrite <- I2; ring]).
  pose proof (hypot_cos_atan2 y x) as C2. pose proof (hypot_sin_atan2 y x) as S2. rewrite H2 in C2, S2.
  unfold unit_normal. rewrite C1, S1, cos_py_mod, sin_py_mod.
  match goal with |- context [cos (l + ?e)] => replace (l + e) with (l + atan2 y x) by ring end.
  rewrite cos_plus, sin_plus.
  replace (sqrt w * (cos l * cos (atan2 y x) - sin l * sin (atan2 y x))) with (cos l * (sqrt w * cos (atan2 y x)) - sin l * (sqrt w * sin (atan2 y x))) by ring.
  replace (sqrt w * (sin l * cos (atan2 y x) + cos l * sin (atan2 y x))) with (sin l * (sqrt w * cos (atan2 y x)) + cos l * (sqrt w * sin (atan2 y x))) by ring.
  rewrite C2, S2. unfold gc_move. cbn. unfold x, y, z. apply f_equal2; [apply f_equal2|]; ring.
Qed.
Lemma vreck_next_sphere k b s : r_B k = 0 -> vreck_next k b s = b.
Proof. intros H. unfold vreck_next. rewrite H, vin_ds_0. ring. Qed.
Lemma vreckon_sphere fuel lat1 lon1 rng az ell deg : ell_ok ell -> ell_a ell = ell_b ell -> 0 <= rng ->
  - quarter deg <= lat1 <= quarter deg -> (1 <= fuel)%nat ->
  1 / 10 ^ 12 < Rabs (rng / ell_a ell - 2 * PI) ->
  exists lat2 lon2, vreckon fuel lat1 lon1 rng az ell deg = Some (Ok (Some (lat2, lon2))) /\
    unit_normal (rad_in deg lat2) (rad_in deg lon2) = gc_move (nudge_pole (rad_in deg lat1)) (rad_in deg lon1) (rad_in deg az) (rng / ell_a ell) /\
    - (PI/2) <= rad_in deg lat2 <= PI/2 /\ 0 <= rad_in deg lon2 < tau.
Proof.
  intros H E Hr Hl Hf HG. rewrite (vreckon_ok _ _ _ _ _ _ _ Hr Hl). cbv zeta.
  destruct (vk_sphere ell (rad_in deg lat1) (rad_in deg az) H E (proj1 (rad_in_bounds deg lat1) Hl)) as [s1 K]. cbv zeta in K.
  unfold vbase. rewrite K. cbn [r_A]. rewrite Rmult_1_r, <- E. set (s := rng / ell_a ell) in *.
  destruct (Rlt_dec _ _) as [_|N]; [|contradiction]. destruct fuel as [|n]; [lia|]. cbn [vreck_loop].
  rewrite vreck_next_sphere by reflexivity. rewrite no_gap. destruct (Rlt_dec _ 0) as [X|_]; [pose proof e12; lra|].
  rewrite (sphere_f ell H E). set (kk := mkVreck _ _ _ _ _ _ _ _ _).
  pose proof (vreck_end_sphere (nudge_pole (rad_in deg lat1)) (rad_in deg lon1) (rad_in deg az) s s1 (1 - cos (nudge_pole (rad_in deg lat1)) * sin (rad_in deg az) * (cos (nudge_pole (rad_in deg lat1)) * sin (rad_in deg az))) 1 0) as V.
  fold kk in V.
  pose proof (vreck_end_lat_range 0 (rad_in deg lon1) kk s s ltac:(lra)) as R1. pose proof (vreck_end_lon_range 0 (rad_in deg lon1) kk s s) as R2.
  destruct (vreck_end _ _ _ _ _) as [la lo]. cbn [fst snd] in R1, R2. exists (deg_out deg la), (deg_out deg lo). rewrite !rad_in_deg_out.
  split; [reflexivity|]. split; [exact V|]. split; [lra|exact R2].
Qed.
(** Following the bearing for the angle reaches the target. *)
Lemma frame_expand U l v : v = vadd (vscale (vdot v (unit_normal U l)) (unit_normal U l))
  (vadd (vscale (vdot v (north_axis U l)) (north_axis U l)) (vscale (vdot v (east_axis U l)) (east_axis U l))).
Proof.
  destruct v as [[x y] z]. cbn. pose proof (sc1 U) as A. pose proof (sc1 l) as B.
  apply f_equal2; [apply f_equal2|].
  - transitivity (x * ((sin U * sin U + cos U * cos U) * (cos l * cos l) + sin l * sin l) + y * ((sin U * sin U + cos U * cos U) * (sin l * cos l) - sin l * cos l)); [|ring].
    rewrite (sc1 U). replace (1 * (cos l * cos l) + sin l * sin l) with (sin l * sin l + cos l * cos l) by ring. rewrite B. ring.
  - transitivity (y * ((sin U * sin U + cos U * cos U) * (sin l * sin l) + cos l * cos l) + x * ((sin U * sin U + cos U * cos U) * (sin l * cos l) - sin l * cos l)); [|ring].
    rewrite (sc1 U). replace (1 * (sin l * sin l) + cos l * cos l) with (sin l * sin l + cos l * cos l) by ring. rewrite B. ring.
  - transitivity (z * (sin U * sin U + cos U * cos U)); [rewrite (sc1 U); ring|ring].
Qed.
Lemma gc_move_target U1 l1 U2 l2 :
  gc_move U1 l1 (gc_bearing U1 l1 U2 l2) (unit_angle (unit_normal U1 l1) (unit_normal U2 l2)) = unit_normal U2 l2.
Proof.
  pose proof (L_ecef.unit_normal_unit U1 l1) as P. pose proof (L_ecef.unit_normal_unit U2 l2) as Q.
  unfold gc_move, gc_bearing. rewrite cos_py_mod, sin_py_mod, (cos_angle _ _ P Q).
  pose proof (angle_range _ _ P Q) as AR. set (s := unit_angle _ _) in *.
  assert (S0 : 0 <= sin s) by (apply sin_ge_0; lra).
  pose proof (frame_expand U1 l1 (unit_normal U2 l2)) as F.
  set (n := vdot (unit_normal U2 l2) (north_axis U1 l1)) in *. set (e := vdot (unit_normal U2 l2) (east_axis U1 l1)) in *.
  assert (HH : hypot n e = sin s).
  { apply hypot_uniq; [exact S0|]. rewrite (sin_sq s). unfold s. rewrite (cos_angle _ _ P Q).
    unfold n, e. rewrite bearing_N, bearing_E.
    pose proof (vs_cs U1 U2 (l2 - l1)) as V.
    replace ((cos U1 * sin U2 - sin U1 * cos U2 * cos (l2 - l1)) ^ 2 + (cos U2 * sin (l2 - l1)) ^ 2) with
      ((cos U2 * sin (l2 - l1)) ^ 2 + (cos U1 * sin U2 - sin U1 * cos U2 * cos (l2 - l1)) ^ 2) by ring.
    rewrite V. rewrite <- v_cs_dot. unfold v_cs. rewrite cos_gap. ring. }
  pose proof (hypot_cos_atan2 e n) as C. pose proof (hypot_sin_atan2 e n) as S. rewrite HH in C, S.
  transitivity (vadd (vscale (vdot (unit_normal U2 l2) (unit_normal U1 l1)) (unit_normal U1 l1)) (vadd (vscale n (north_axis U1 l1)) (vscale e (east_axis U1 l1)))); [|symmetry; exact F].
  set (ca := cos (atan2 e n)) in *. set (sa := sin (atan2 e n)) in *. clearbody ca sa. rewrite <- C, <- S.
  replace (vdot (unit_normal U1 l1) (unit_normal U2 l2)) with (vdot (unit_normal U2 l2) (unit_normal U1 l1)) by (cbn; ring).
  set (d := vdot (unit_normal U2 l2) (unit_normal U1 l1)).
  cbn. apply f_equal2; [apply f_equal2|]; ring.
Qed.
(** A unit vector determines latitude and longitude in the standard ranges. *)
Lemma unit_normal_inj p l p' l' : - (PI/2) <= p <= PI/2 -> - (PI/2) < p' < PI/2 -> unit_normal p l = unit_normal p' l' ->
  p = p' /\ cos l = cos l' /\ sin l = sin l'.
Proof.
  intros H1 H2 E. unfold unit_normal in E. apply pair_equal_spec in E. destruct E as [E Ez]. apply pair_equal_spec in E. destruct E as [Ex Ey].
  assert (p = p') by (rewrite <- (asin_sin p), <- (asin_sin p') by lra; now rewrite Ez). subst p'.
  assert (0 < cos p) by (apply cos_gt_0; lra). split; [reflexivity|]. split; apply Rmult_eq_reg_l with (cos p); lra.
Qed.
Lemma lon_of_sc l l' : 0 <= l < tau -> cos l = cos l' -> sin l = sin l' -> l = py_mod l' tau.
Proof.
  intros H C S. rewrite <- (cos_py_mod l') in C. rewrite <- (sin_py_mod l') in S. pose proof (py_mod_range l' tau tau_pos) as R1.
  set (m := py_mod l' tau) in *. unfold tau in *.
  assert (D : cos (l - m) = 1) by (rewrite cos_minus, C, S; pose proof (sc1 m); lra).
  assert (l - m = 0) by (apply cos_eq_1_range; lra). lra.
Qed.

(** ** One-element arrays *)
Lemma loop_array_one f L U1 U2 : forall n l last s, (n = O -> last = [s]) ->
  vdist_loop_array n f [(U1, U2, L)] [l] last =
  (let '(l', s') := vdist_loop n f L U1 U2 l s in
   (match fst (vdist_loop_array n f [(U1, U2, L)] [l] last) with inl _ => inl [l'] | inr _ => inr tt end, [s'])) /\
  (fst (vdist_loop_array n f [(U1, U2, L)] [l] last) = inr tt -> fst (vdist_loop n f L U1 U2 l s) = PI).
Proof.
  induction n as [|n IH]; intros l last s Hl; [cbn; rewrite Hl by reflexivity; split; reflexivity|].
  cbn [vdist_loop_array vdist_loop any_sin0 combine existsb map vdist_step fst snd]. rewrite !Bool.orb_false_r.
  set (al := if (if Req_EM_T (sin (v_sigma U1 U2 l)) 0 then true else false) then 0 else v_alpha (v_sinAlpha U1 U2 l)).
  assert (A : al = v_alpha (v_sinAlpha U1 U2 l)).
  { unfold al, v_sinAlpha. destruct (Req_EM_T _ 0); [symmetry; apply v_alpha_0|reflexivity]. }
  rewrite A. set (l' := v_lamb _ _ _ _ _).
  destruct (Rlt_dec PI l') as [X|X]; [split; reflexivity|].
  destruct (Rlt_dec (1 / 10 ^ 12) (Rabs (l' - l))) as [Y|Y]; [|split; [reflexivity|discriminate]].
  apply IH. reflexivity.
Qed.
Lemma vdist_array_one p ell deg : fst (vdist_array [p] ell deg) =
  (let '(lat1, lon1, lat2, lon2) := p in match vdist lat1 lon1 lat2 lon2 ell deg with Ok r => Ok [r] | Raise e => Raise e end).
Proof.
  destruct p as [[[lat1 lon1] lat2] lon2]. unfold vdist_array, vdist. cbv zeta. cbn [map existsb]. rewrite !Bool.orb_false_r.
  destruct (_ || _)%bool; [reflexivity|]. set (f := flattening _). set (L := lon_gap _ _).
  destruct (loop_array_one f L (reduced_lat f (nudge_pole (rad_in deg lat1))) (reduced_lat f (nudge_pole (rad_in deg lat2))) 50 L [] (0,0,0) ltac:(discriminate)) as [A B].
  destruct (vdist_loop _ _ _ _ _ _ _) as [l' s']. destruct (vdist_loop_array _ _ _ _ _) as [[ls|u] st]; cbn [fst] in A, B.
  - apply pair_equal_spec in A. destruct A as [A ->]. injection A as ->. reflexivity.
  - apply pair_equal_spec in A. destruct A as [_ ->]. cbn [fst] in B. destruct u. rewrite (B eq_refl). reflexivity.
Qed.

(** ** Arrays on a sphere *)
Lemma existsb_Forall {A} (p : A -> bool) l : Forall (fun x => p x = false) l -> existsb p l = false.
Proof. induction 1 as [|x l H F IH]; [reflexivity|]. cbn. rewrite H, IH. reflexivity. Qed.
Lemma loop_array_sphere n lanes last : Forall (fun '(_, _, L) => L <= PI) lanes ->
  exists st, vdist_loop_array (S n) 0 lanes (map (fun '(_, _, L) => L) lanes) last = (inl (map (fun '(_, _, L) => L) lanes), st) /\
    map (fun '(s, _, _) => s) st = map (fun '(U1, U2, L) => v_sigma U1 U2 L) lanes.
Proof.
  intros F. cbn [vdist_loop_array]. set (z := any_sin0 _ _). clearbody z. set (Ls := map _ lanes).
  assert (E : map fst (map (vdist_step 0 z) (combine lanes Ls)) = Ls).
  { unfold Ls. clear. induction lanes as [|[[U1 U2] L] r IH]; [reflexivity|]. cbn [map combine]. rewrite IH. cbn [vdist_step fst]. now rewrite v_lamb_sphere. }
  rewrite E. rewrite existsb_Forall.
  2: { unfold Ls. clear -F. induction F as [|[[U1 U2] L] r H F IH]; [constructor|]. cbn [map]. constructor; [|exact IH]. destruct (Rlt_dec PI L); [lra|reflexivity]. }
  rewrite existsb_Forall.
  2: { clear. induction Ls as [|x r IH]; [constructor|]. cbn [combine]. constructor; [|exact IH]. rewrite no_gap. destruct (Rlt_dec _ 0) as [X|_]; [pose proof e12; lra|reflexivity]. }
  eexists. split; [reflexivity|]. rewrite !map_map. unfold Ls. clear. induction lanes as [|[[U1 U2] L] r IH]; [reflexivity|].
  cbn [map combine]. rewrite IH. reflexivity.
Qed.
Lemma vdist_array_sphere pts ell deg : ell_ok ell -> ell_a ell = ell_b ell ->
  Forall (fun '(lat1, _, lat2, _) => (- quarter deg <= lat1 <= quarter deg) /\ (- quarter deg <= lat2 <= quarter deg)) pts ->
  exists l, fst (vdist_array pts ell deg) = Ok l /\
    Forall2 (fun '(lat1, lon1, lat2, lon2) r => vdist lat1 lon1 lat2 lon2 ell deg = Ok r) pts l.
Proof.
  intros H E F. unfold vdist_array. cbv zeta. rewrite !existsb_Forall; cbn [orb].
  2: { apply List.Forall_map. eapply List.Forall_impl; [|exact F]. intros [[[la1 lo1] la2] lo2] [_ K]. now apply out_of_range_false, rad_in_bounds. }
  2: { apply List.Forall_map. eapply List.Forall_impl; [|exact F]. intros [[[la1 lo1] la2] lo2] [K _]. now apply out_of_range_false, rad_in_bounds. }
  rewrite (sphere_f ell H E), resolve_a, resolve_b, <- E. set (lanes := map _ pts).
  destruct (loop_array_sphere 49 lanes []) as (st & -> & S).
  { unfold lanes. apply List.Forall_map, List.Forall_forall. intros [[[la1 lo1] la2] lo2] _. apply lon_gap_range. }
  cbn [fst]. eexists. split; [reflexivity|]. revert st S. unfold lanes. clear lanes.
  induction F as [|[[[la1 lo1] la2] lo2] r [K1 K2] F IH]; intros st S.
  - cbn. destruct st; [|discriminate]. constructor.
  - cbn [map] in S. destruct st as [|[[sg al] c2] st]; [discriminate|]. cbn [map] in S. injection S as S1 S2.
    cbn [map combine]. constructor; [|apply IH, S2].
    rewrite (vdist_sphere_val _ _ _ _ _ _ H E K1 K2). f_equal. apply pair_equal_spec.
    pose proof (rad_in_bounds deg la1) as Ra. pose proof (rad_in_bounds deg la2) as Rb.
    pose proof (nudge_range _ (proj1 Ra K1)). pose proof (nudge_range _ (proj1 Rb K2)). pose proof ten10.
    rewrite !reduced_sphere in * by lra. split.
    + rewrite (vdist_length_sphere (ell_a ell) (sg, al, c2)), S1, v_sigma_angle. reflexivity.
    + rewrite vdist_azimuth_gap. reflexivity.
Qed.
