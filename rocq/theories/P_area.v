(** Properties C50 (what geodesic_area computes) and C67 (reversed courses). *)
From Coq Require Import Lia Psatz List Permutation.
From Coquelicot Require Import Coquelicot.
From Verif Require Import PyMath M_ellipsoid M_karney Spec P_vincenty P_karney.
From Verif Require L_ell L_karney L_karney6 L_area P_radii.
Import ListNotations.
Open Scope R_scope.

(** ** Specification *)
(** The edge from vertex i to its successor, the last vertex being followed by the
    first, as geodesic_inverse answers it: length, course at departure, course on arrival. *)
Definition edge (vs : list (R * R)) (ell : option Ellipsoid) (deg : bool) (i : nat) : R * R * R :=
  let '(la, lo) := nth i vs (0, 0) in let '(la', lo') := nth ((i + 1) mod List.length vs) vs (0, 0) in
  geodesic_inverse la lo la' lo' ell deg.
Definition departure (e : R * R * R) : R := snd (fst e).
Definition arrival (e : R * R * R) : R := snd e.
(** [ts] are the changes of course, to the right positive, at the end of each edge, as
    numbers in (-180, 180] (which are degrees if the azimuths are). *)
Definition course_changes (vs : list (R * R)) (ell : option Ellipsoid) (deg : bool) (ts : list R) : Prop :=
  List.length ts = List.length vs /\
  forall i, (i < List.length vs)%nat ->
    wrapped true (departure (edge vs ell deg ((i + 1) mod List.length vs)) - arrival (edge vs ell deg i)) (nth i ts 0).
Definition total (ts : list R) : R := fold_right Rplus 0 ts.
(** [A] is the area of the whole spheroid (as in C34). *)
Definition surface_area (ell : option Ellipsoid) (A : R) : Prop :=
  let a := ell_a ell in let b := ell_b ell in
  is_RInt (fun t => 2 * PI * (a * cos t) * sqrt ((a * sin t) ^ 2 + (b * cos t) ^ 2)) (- PI / 2) (PI / 2) A.

Lemma surface_eq ell A : ell_ok ell -> surface_area ell A -> A = 4 * PI * gd_c2 (get_geodesic ell) /\ 0 < A.
Proof.
  intros H S. pose proof (P_radii.C34_authalic_equal_area ell H) as Q. cbv zeta in Q. rewrite (L_area.c2_area ell H).
  rewrite <- (is_RInt_unique _ _ _ _ S), (is_RInt_unique _ _ _ _ Q). split; [reflexivity|].
  destruct (L_rsphere.authalic_bounds ell H). destruct (L_ell.ell_pos ell H). apply Rmult_lt_0_compat; [pose proof PI_RGT_0; lra|apply pow_lt; lra].
Qed.
Lemma changes_eq vs ell deg ts : course_changes vs ell deg ts -> ts = L_area.turns_of (edges vs ell deg).
Proof.
  intros [L W]. apply (nth_ext _ _ 0 0); [now rewrite L_area.turns_length, L_area.edges_length|]. intros i Hi. rewrite L in Hi.
  pose proof Hi as Hi'. rewrite <- (L_area.edges_length vs ell deg) in Hi'. rewrite (L_area.turns_nth _ i (0, 0, 0) Hi'). apply (wrapped_unique true _ _ _ (W i Hi)).
  rewrite L_area.edges_length, !(L_area.edges_nth vs ell deg _ (0, 0, 0) (0, 0)) by (try exact Hi; apply Nat.mod_upper_bound; lia).
  apply (C47_normalize (departure (edge vs ell deg ((i + 1) mod List.length vs)) - arrival (edge vs ell deg i))).
Qed.
Lemma changes_exist vs ell deg : course_changes vs ell deg (L_area.turns_of (edges vs ell deg)).
Proof.
  split; [now rewrite L_area.turns_length, L_area.edges_length|]. intros i Hi.
  pose proof Hi as Hi'. rewrite <- (L_area.edges_length vs ell deg) in Hi'. rewrite (L_area.turns_nth _ i (0, 0, 0) Hi').
  rewrite L_area.edges_length, !(L_area.edges_nth vs ell deg _ (0, 0, 0) (0, 0)) by (try exact Hi; apply Nat.mod_upper_bound; lia).
  apply (C47_normalize (departure (edge vs ell deg ((i + 1) mod List.length vs)) - arrival (edge vs ell deg i))).
Qed.

(** ** C50 *)
(** What the first component is: the share (total change of course) / 720 of the area
    of the whole spheroid, moved once by that area if it exceeds half of it.  This is
    not the enclosed area: by Gauss-Bonnet the total change of course of a small
    polygon is about 360 clockwise, -360 counterclockwise, so the answer is off by
    half the spheroid (see C50_counterclockwise_positive_refuted). *)
Theorem C50_area_is_turning_partial : forall vs ell deg ts A, ell_ok ell -> (3 <= List.length vs)%nat ->
  course_changes vs ell deg ts -> surface_area ell A ->
  exists area p, geodesic_area vs ell deg = Ok (area, p) /\
    let T := A * (total ts / 720) in
    (Rabs T <= A / 2 -> area = T) /\ (A / 2 < T -> area = T - A) /\ (T < - (A / 2) -> area = T + A).
Proof.
  intros vs ell deg ts A H Hn C S. destruct (surface_eq ell A H S) as [EA PA]. pose proof PI_RGT_0 as PP.
  destruct (L_area.area_turns vs ell deg Hn) as [p Q]. rewrite <- EA, <- (changes_eq vs ell deg ts C) in Q.
  assert (T : gd_c2 (get_geodesic ell) * radians (L_area.rsum ts) = A * (total ts / 720)).
  { rewrite EA. unfold radians, L_area.rsum, total. field. }
  rewrite T in Q. eexists _, p. split; [exact Q|]. cbv zeta. set (x := A * (total ts / 720)). unfold L_area.reduce_area, copysign.
  destruct (Rlt_dec (A / 2) (Rabs x)) as [X|X].
  - split; [lra|]. rewrite (Rabs_right A) by lra. split; intros Y; destruct (Rlt_dec x 0); lra.
  - split; [reflexivity|]. assert (- (A / 2) <= x <= A / 2) by (unfold Rabs in X; destruct (Rcase_abs x); lra). split; lra.
Qed.
Theorem C50_course_changes_unique : forall vs ell deg, exists ts, course_changes vs ell deg ts /\ forall ts', course_changes vs ell deg ts' -> ts' = ts.
Proof. intros vs ell deg. eexists. split; [apply changes_exist|]. intros ts' C. now apply changes_eq. Qed.
(** ** C67: swapping the end points turns the course around *)
Theorem C67_reversed_course : forall lat1 lon1 lat2 lon2 ell deg d az1 az2 d' az1' az2', lat_ok deg lat1 -> lat_ok deg lat2 ->
  Rabs lat1 <> Rabs lat2 -> ~ (exists k : Z, lon2 - lon1 = IZR k * half deg) ->
  geodesic_inverse lat1 lon1 lat2 lon2 ell deg = (d, az1, az2) -> geodesic_inverse lat2 lon2 lat1 lon1 ell deg = (d', az1', az2') ->
  d' = d /\ (exists k : Z, az1' = az2 + half deg + IZR k * full deg) /\ (exists k : Z, az2' = az1 + half deg + IZR k * full deg).
Proof.
  intros lat1 lon1 lat2 lon2 ell deg d az1 az2 d' az1' az2' H1 H2 N Nl E E'. split.
  - pose proof (C67_distance_symmetric lat1 lon1 lat2 lon2 ell deg H1 H2) as Q. rewrite E, E' in Q. cbn in Q. now symmetry.
  - rewrite inverse_open in E, E'.
    assert (NA : Rabs (to_deg deg lat1) <> Rabs (to_deg deg lat2)).
    { intros X. apply N. destruct deg; cbn [to_deg] in X; [exact X|]. unfold degrees, Rdiv in X. rewrite !Rabs_mult in X. apply Rmult_eq_reg_r in X; [|apply Rabs_no_R0, Rinv_neq_0_compat, PI_neq0].
      apply Rmult_eq_reg_r in X; [exact X|]. apply Rabs_no_R0. lra. }
    assert (NN : forall z (j : Z), z = IZR j * 180 -> AngNormalize (to_deg deg lon2 - to_deg deg lon1) <> z).
    { intros z j -> Z. apply Nl. destruct (L_karney.AngNormalize_congr (to_deg deg lon2 - to_deg deg lon1)) as [k K].
      exists (j - 2 * k)%Z. rewrite <- (of_to deg lon2), <- (of_to deg lon1), minus_IZR, mult_IZR. rewrite Z in K.
      destruct deg; cbn [of_deg to_deg half full] in *; [lra|]. unfold radians in *.
      replace (degrees lon2 * PI / 180 - degrees lon1 * PI / 180) with ((degrees lon2 - degrees lon1) * PI / 180) by field.
      replace (degrees lon2 - degrees lon1) with (IZR j * 180 - IZR k * 360) by lra. field. }
    pose proof (L_area.reverse_azi (get_geodesic ell) (to_deg deg lat1) (to_deg deg lon1) (to_deg deg lat2) (to_deg deg lon2) (to_range _ _ H1) (to_range _ _ H2) NA
      (NN 0 0%Z ltac:(lra)) (NN 180 1%Z ltac:(lra))) as [[k K] [m M]].
    destruct (Inverse _ _ (to_deg deg lon1) _ _) as [[a b] c]. destruct (Inverse _ _ (to_deg deg lon2) _ _) as [[a' b'] c'].
    unfold L_karney6.iaz1, L_karney6.iaz2 in *. cbn [fst snd] in *. injection E as <- <- <-. injection E' as <- <- <-.
    split; [exists k; rewrite K|exists m; rewrite M]; rewrite of_full; f_equal; destruct deg; cbn [of_deg half]; try reflexivity; unfold radians; field.
Qed.
(** ** C50: which way the courses turn *)
(** On a sphere the change of course at the middle one of three vertices is to the left
    (negative) exactly when the three are counterclockwise. *)
Theorem C50_turn_direction_sphere : forall la lo lb lp lc lq ell deg d1 x1 y1 d2 x2 y2, ell_ok ell -> ell_a ell = ell_b ell ->
  off_pole deg la -> off_pole deg lb -> off_pole deg lc ->
  geodesic_inverse la lo lb lp ell deg = (d1, x1, y1) -> geodesic_inverse lb lp lc lq ell deg = (d2, x2, y2) ->
  let p := dir deg la lo in let q := dir deg lb lp in let r := dir deg lc lq in
  q <> p -> q <> vopp p ->
  sin (as_rad deg (x2 - y1)) * (sin (unit_angle p q) * sin (unit_angle q r)) = - vdot p (vcross q r).
Proof.
  intros la lo lb lp lc lq ell deg d1 x1 y1 d2 x2 y2 H E Pa Pb Pc I1 I2 p q r Npq Nop.
  pose proof (C68_sphere _ _ _ _ _ _ _ _ _ H E Pa Pb I1) as Q1. cbv zeta in Q1. destruct Q1 as (_ & B1 & H1).
  pose proof (C68_sphere _ _ _ _ _ _ _ _ _ H E Pb Pc I2) as Q2. cbv zeta in Q2. destruct Q2 as (_ & B2 & _).
  apply is_bearing_arc in B1. apply is_bearing_arc in B2. fold p q in B1, H1. fold q r in B2.
  assert (Up : is_unit p) by apply L_ecef.unit_normal_unit. assert (Uq : is_unit q) by apply L_ecef.unit_normal_unit.
  pose proof (L_nvector.angle_range _ _ Up Uq) as Rg. assert (CA : cos (unit_angle p q) = vdot p q) by (apply L_nvector.cos_angle; assumption).
  set (th := unit_angle p q) in *. set (t2 := unit_angle q r) in *.
  assert (T : 0 < th < PI).
  { destruct (Req_dec th 0) as [Z|]; [|destruct (Req_dec th PI) as [Z|]; [|lra]]; exfalso.
    - apply Npq. rewrite Z in B1. unfold arc_end in B1. rewrite cos_0, sin_0 in B1. rewrite <- B1. unfold p, dir. destruct (unit_normal _ _) as [[u1 u2] u3]. destruct (vadd _ (vscale (sin (as_rad deg x1)) _)) as [[w1 w2] w3]. cbn. apply f_equal2; [apply f_equal2|]; ring.
    - apply Nop. rewrite Z in B1. unfold arc_end in B1. rewrite cos_PI, sin_PI in B1. rewrite <- B1. unfold p, dir. destruct (unit_normal _ _) as [[u1 u2] u3]. destruct (vadd _ (vscale (sin (as_rad deg x1)) _)) as [[w1 w2] w3]. cbn. apply f_equal2; [apply f_equal2|]; ring. }
  specialize (H1 T). unfold arc_end in B1, B2. unfold arc_heading in H1. unfold heading in H1. fold (dir deg la lo) in B1, H1. fold (dir deg lb lp) in B2. fold p in B1, H1. fold q in B2.
  replace (as_rad deg (x2 - y1)) with (as_rad deg x2 - as_rad deg y1) by (destruct deg; cbn [as_rad]; field). rewrite sin_minus.
  set (c := as_rad deg x2) in *. set (e := as_rad deg y1) in *.
  set (tv := vadd (vscale (cos (as_rad deg x1)) _) _) in B1, H1. clearbody tv.
  (* the frame at q *)
  assert (F : vdot (north_axis (as_rad deg lb) (as_rad deg lp)) (vcross q (east_axis (as_rad deg lb) (as_rad deg lp))) = 1).
  { unfold q, dir, unit_normal, north_axis, east_axis. cbn. set (u := as_rad deg lb). set (w := as_rad deg lp). pose proof (L_PyMath.sc1 u) as S1. pose proof (L_PyMath.sc1 w) as S2.
    match goal with |- ?x = 1 => replace x with ((sin u ^ 2 + cos u ^ 2) * (sin w ^ 2 + cos w ^ 2)) by ring end. replace (sin u ^ 2 + cos u ^ 2) with 1 by lra. replace (sin w ^ 2 + cos w ^ 2) with 1 by lra. ring. }
  set (N := north_axis _ _) in *. set (Ea := east_axis _ _) in *.
  pose proof (L_PyMath.sc1 th) as SC.
  assert (EP : p = vsub (vscale (cos th) q) (vscale (sin th) (vadd (vscale (cos e) N) (vscale (sin e) Ea)))).
  { rewrite H1, <- B1. destruct p as [[p1 p2] p3]. destruct tv as [[t1 t2'] t3]. cbn. replace (cos th) with (cos th) by reflexivity.
    assert (X : forall x y, x = cos th * (cos th * x + sin th * y) - sin th * (- sin th * x + cos th * y)) by (intros; replace (cos th * (cos th * x + sin th * y) - sin th * (- sin th * x + cos th * y)) with ((sin th * sin th + cos th * cos th) * x) by ring; replace (sin th * sin th + cos th * cos th) with 1 by lra; ring).
    apply f_equal2; [apply f_equal2|]; apply X. }
  clear B1 H1 CA. rewrite EP, <- B2. clear EP B2 Npq Nop Up Uq. clearbody N Ea q th t2. clear - F.
  destruct N as [[n1 n2] n3]. destruct Ea as [[e1 e2] e3]. destruct q as [[q1 q2] q3]. cbn in *.
  replace (sin c * cos e - cos c * sin e) with ((sin c * cos e - cos c * sin e) * (n1 * (q2 * e3 - q3 * e2) + n2 * (q3 * e1 - q1 * e3) + n3 * (q1 * e2 - q2 * e1))) by (rewrite F; ring). ring.
Qed.
(** ** C50: traversing the polygon the other way round *)
(** Consecutive vertices at different distances from the equator and not on one
    meridian circle; no exact U-turn at a vertex: then the reversed order gives the
    opposite sign and the same perimeter. *)
Definition generic_edges (vs : list (R * R)) : Prop :=
  forall i, (i < List.length vs)%nat -> let '(la, lo) := nth i vs (0, 0) in let '(la', lo') := nth ((i + 1) mod List.length vs) vs (0, 0) in
    -90 <= la <= 90 /\ Rabs la <> Rabs la' /\ ~ (exists k : Z, lo' - lo = IZR k * 180).
Theorem C50_reversed_order : forall vs ell ts area p area' p', ell_ok ell -> (3 <= List.length vs)%nat ->
  generic_edges vs -> course_changes vs ell true ts -> ~ In 180 ts ->
  geodesic_area vs ell true = Ok (area, p) -> geodesic_area (rev vs) ell true = Ok (area', p') -> area' = - area.
Proof.
  intros vs ell ts area p area' p' H Hn G C NU E E'. set (n := List.length vs) in *.
  assert (Hr : List.length (rev vs) = n) by apply rev_length.
  destruct (L_area.area_turns vs ell true Hn) as [q Q]. destruct (L_area.area_turns (rev vs) ell true ltac:(rewrite Hr; exact Hn)) as [q' Q'].
  rewrite E in Q. rewrite E' in Q'. injection Q as -> ->. injection Q' as -> ->.
  assert (CP : 0 < gd_c2 (get_geodesic ell)).
  { rewrite (L_area.c2_area ell H). destruct (L_rsphere.authalic_bounds ell H). destruct (L_ell.ell_pos ell H). apply pow_lt. lra. }
  assert (S : L_area.rsum (L_area.turns_of (edges (rev vs) ell true)) = - L_area.rsum (L_area.turns_of (edges vs ell true))).
  { pose proof (changes_eq _ _ _ _ C) as ET. pose proof (changes_exist (rev vs) ell true) as C'. set (ts' := L_area.turns_of (edges (rev vs) ell true)) in *. rewrite <- ET.
    destruct C as [L W]. destruct C' as [L' W']. rewrite Hr in L', W'. fold n in L, W.
    rewrite (L_area.rsum_seq ts'), L', (L_area.rsum_seq ts), L, <- L_area.rsum_neg, map_map.
    rewrite <- (L_area.rsum_perm _ _ (Permutation_map (fun i => - nth i ts 0) (L_area.back_perm n Hn))), map_map. f_equal. apply map_ext_in.
    intros i Hi. apply in_seq in Hi. assert (Hi' : (i < n)%nat) by lia. clear Hi.
    set (j := L_area.back n i). assert (Hj : (j < n)%nat) by (unfold j, L_area.back; destruct (Nat.leb_spec (i + 3) n); lia).
    pose proof (L_area.nth_back vs (0, 0) i Hn Hi') as B. cbv zeta in B. fold n j in B. destruct B as (B0 & B1 & B2).
    assert (Nn : n <> 0%nat) by lia. pose proof (Nat.mod_upper_bound (i + 1) n Nn) as Hi1. pose proof (Nat.mod_upper_bound (j + 1) n Nn) as Hj1.
    assert (J2 : (((j + 1) mod n + 1) mod n = (j + 2) mod n)%nat) by (rewrite Nat.add_mod_idemp_l by exact Nn; f_equal; lia).
    specialize (W j Hj). specialize (W' i Hi').
    assert (NT : nth j ts 0 <> 180) by (intros X; apply NU; rewrite <- X; apply nth_In; rewrite L; exact Hj).
    unfold edge in W, W'. rewrite Hr in W'. fold n in W. rewrite J2 in W. rewrite B0, B1, B2 in W'.
    pose proof (G j Hj) as Gj. pose proof (G _ Hj1) as Gj1. fold n in Gj, Gj1. rewrite J2 in Gj1.
    pose proof (G _ (Nat.mod_upper_bound (j + 2) n Nn)) as Gj2. fold n in Gj2.
    destruct (nth j vs (0, 0)) as [la lo]. destruct (nth ((j + 1) mod n) vs (0, 0)) as [lb lp]. destruct (nth ((j + 2) mod n) vs (0, 0)) as [lc lq].
    destruct (nth (((j + 2) mod n + 1) mod n) vs (0, 0)) as [ld lr]. destruct Gj as (R1 & N1 & M1). destruct Gj1 as (R2 & N2 & M2). destruct Gj2 as (R3 & _ & _).
    destruct (geodesic_inverse la lo lb lp ell true) as [[d1 x1] y1] eqn:I1. destruct (geodesic_inverse lb lp lc lq ell true) as [[d2 x2] y2] eqn:I2.
    destruct (geodesic_inverse lb lp la lo ell true) as [[d1' x1'] y1'] eqn:I1'. destruct (geodesic_inverse lc lq lb lp ell true) as [[d2' x2'] y2'] eqn:I2'.
    destruct (C67_reversed_course la lo lb lp ell true d1 x1 y1 d1' x1' y1' R1 R2 N1 M1 I1 I1') as (_ & [k1 K1] & _).
    destruct (C67_reversed_course lb lp lc lq ell true d2 x2 y2 d2' x2' y2' R2 R3 N2 M2 I2 I2') as (_ & _ & [k2 K2]).
    cbn [departure arrival fst snd] in *. destruct W as [Rg [k K]]. cbn [half full] in *.
    apply (wrapped_unique true _ _ _ W'). split; [cbn [half]; fold j; destruct (Rdichotomy _ _ NT); lra|]. exists (- k + k2 - k1)%Z. fold j. cbn [full]. rewrite K, K1, K2, minus_IZR, plus_IZR, opp_IZR. ring. }
  rewrite S. rewrite <- L_area.reduce_odd.
  - f_equal. unfold radians. field.
  - apply Rmult_lt_0_compat; [pose proof PI_RGT_0; lra|exact CP].
Qed.
(** On a sphere the condition on U-turns is met when no three consecutive vertices are
    on one great circle. *)
Definition vertex (vs : list (R * R)) (i : nat) : vec3 := let '(la, lo) := nth (i mod List.length vs) vs (0, 0) in dir true la lo.
Definition generic_corners (vs : list (R * R)) : Prop :=
  forall i, (i < List.length vs)%nat -> off_pole true (fst (nth i vs (0, 0))) /\
    vdot (vertex vs i) (vcross (vertex vs (i + 1)) (vertex vs (i + 2))) <> 0.
Theorem C50_reversed_order_sphere : forall vs ell area p area' p', ell_ok ell -> ell_a ell = ell_b ell -> (3 <= List.length vs)%nat ->
  generic_edges vs -> generic_corners vs ->
  geodesic_area vs ell true = Ok (area, p) -> geodesic_area (rev vs) ell true = Ok (area', p') -> area' = - area.
Proof.
  intros vs ell area p area' p' H Es Hn G K E E'. set (n := List.length vs) in *. assert (Nn : n <> 0%nat) by lia.
  apply (C50_reversed_order vs ell (L_area.turns_of (edges vs ell true)) area p area' p' H Hn G (changes_exist vs ell true)); [|exact E|exact E'].
  intros I. apply (In_nth _ _ 0) in I. destruct I as (i & Hi & V). rewrite L_area.turns_length, L_area.edges_length in Hi. fold n in Hi.
  destruct (changes_exist vs ell true) as [_ W]. specialize (W i Hi). fold n in W. rewrite V in W. destruct W as [_ [k W]].
  pose proof (Nat.mod_upper_bound (i + 1) n Nn) as Hi1. pose proof (Nat.mod_upper_bound (i + 2) n Nn) as Hi2.
  assert (J2 : (((i + 1) mod n + 1) mod n = (i + 2) mod n)%nat) by (rewrite Nat.add_mod_idemp_l by exact Nn; f_equal; lia).
  destruct (K i Hi) as [P0 D]. destruct (K _ Hi1) as [P1 _]. destruct (K _ Hi2) as [P2 _]. unfold vertex in D. fold n in D. rewrite (Nat.mod_small i n Hi) in D.
  unfold edge in W. fold n in W. rewrite J2 in W.
  destruct (nth i vs (0, 0)) as [la lo]. destruct (nth ((i + 1) mod n) vs (0, 0)) as [lb lp]. destruct (nth ((i + 2) mod n) vs (0, 0)) as [lc lq]. cbn [fst] in *.
  destruct (geodesic_inverse la lo lb lp ell true) as [[d1 x1] y1] eqn:I1. destruct (geodesic_inverse lb lp lc lq ell true) as [[d2 x2] y2] eqn:I2.
  cbn [departure arrival fst snd full] in W.
  assert (N1 : dir true lb lp <> dir true la lo).
  { intros X. apply D. rewrite X. destruct (dir true la lo) as [[u1 u2] u3]. destruct (dir true lc lq) as [[w1 w2] w3]. cbn. ring. }
  assert (N2 : dir true lb lp <> vopp (dir true la lo)).
  { intros X. apply D. rewrite X. destruct (dir true la lo) as [[u1 u2] u3]. destruct (dir true lc lq) as [[w1 w2] w3]. cbn. ring. }
  pose proof (C50_turn_direction_sphere la lo lb lp lc lq ell true d1 x1 y1 d2 x2 y2 H Es P0 P1 P2 I1 I2 N1 N2) as Q. cbv zeta in Q.
  apply D. replace (x2 - y1) with (180 + IZR (- k) * 360) in Q by (rewrite opp_IZR; lra).
  replace (as_rad true (180 + IZR (- k) * 360)) with (PI + IZR (- k) * (2 * PI)) in Q by (cbn [as_rad]; field).
  rewrite L_PyMath.sin_period_Z, sin_PI in Q. lra.
Qed.
Example C50_reversed_hypotheses_met : let vs := [(0, 0); (30, 90); (60, 45)] in generic_edges vs /\ generic_corners vs /\
  ell_ok (Some unit_sphere) /\ ell_a (Some unit_sphere) = ell_b (Some unit_sphere) /\ exists A, surface_area None A.
Proof.
  cbv zeta. assert (NK : forall x (j : Z), (exists k : Z, x = IZR k * 180) -> IZR j * 180 < x < IZR (j + 1) * 180 -> False).
  { intros x j [k ->] [A B]. assert (IZR j < IZR k < IZR (j + 1)) as [C D] by lra. apply lt_IZR in C. apply lt_IZR in D. lia. }
  split; [|split; [|split; [apply unit_sphere_ok|split; [apply unit_sphere_ok|]]]].
  - intros i Hi. cbn [List.length] in *. destruct i as [|[|[|i]]]; [| | |lia]; cbn [nth Nat.modulo Nat.divmod Nat.add Nat.sub fst snd]; (split; [lra|]); (split; [rewrite ?Rabs_R0, ?(Rabs_right 30), ?(Rabs_right 60) by lra; lra|]); intros K.
    + apply (NK (90 - 0) 0%Z K). simpl. lra.
    + apply (NK (45 - 90) (-1)%Z K). simpl. lra.
    + apply (NK (0 - 45) (-1)%Z K). simpl. lra.
  - assert (R0 : as_rad true 0 = 0) by (cbn [as_rad]; field). assert (R30 : as_rad true 30 = PI / 6) by (cbn [as_rad]; field).
    assert (R60 : as_rad true 60 = PI / 3) by (cbn [as_rad]; field). assert (R90 : as_rad true 90 = PI / 2) by (cbn [as_rad]; field). assert (R45 : as_rad true 45 = PI / 4) by (cbn [as_rad]; field).
    assert (T : / 2 ^ 26 <= 1 / 2) by (simpl; lra).
    assert (S3 : sqrt 3 ^ 2 = 3) by (apply pow2_sqrt; lra). assert (S30 : 0 <= sqrt 3) by apply sqrt_pos. assert (S31 : 1 <= sqrt 3) by (apply Rnot_lt_le; intros X; nra).
    assert (S2 : 0 < 1 / sqrt 2 < 1). { assert (1 < sqrt 2) by (rewrite <- sqrt_1 at 1; apply sqrt_lt_1; lra). split; [apply Rdiv_lt_0_compat; lra|]. apply Rmult_lt_reg_r with (sqrt 2); [lra|]. unfold Rdiv. rewrite Rmult_assoc, Rinv_l by lra. lra. }
    assert (P0 : off_pole true 0) by (split; [unfold lat_ok; cbn; lra|rewrite R0, cos_0; lra]).
    assert (P30 : off_pole true 30) by (split; [unfold lat_ok; cbn; lra|rewrite R30, cos_PI6; lra]).
    assert (P60 : off_pole true 60) by (split; [unfold lat_ok; cbn; lra|rewrite R60, cos_PI3; lra]).
    intros i Hi. cbn [List.length] in *. unfold vertex. cbn [List.length]. destruct i as [|[|[|i]]]; [| | |lia]; cbn [nth Nat.modulo Nat.divmod Nat.add Nat.sub fst snd]; (split; [assumption|]);
      unfold dir; rewrite ?R0, ?R30, ?R60, ?R90, ?R45; unfold unit_normal; rewrite cos_0, sin_0, cos_PI2, sin_PI2, cos_PI6, sin_PI6, cos_PI3, sin_PI3, cos_PI4, sin_PI4; cbn; set (w := 1 / sqrt 2) in *; intros X; nra.
  - eexists. exact (P_radii.C34_authalic_equal_area None I).
Qed.
