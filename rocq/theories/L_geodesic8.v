(** Connections: which point a geodesic reaches; reversal and mirror images. *)
From Coq Require Import Reals Lra Lia Psatz.
From Coquelicot Require Import Coquelicot.
From Verif Require Import PyMath L_PyMath Spec Spec_geodesic L_karney3 L_series1 L_series3 L_geodesic1 L_geodesic2 L_geodesic3 L_geodesic4 L_geodesic6 L_geodesic7.
Open Scope R_scope.

Definition starts (a b phi l az : R) (c t : R -> vec3) : Prop :=
  unit_geodesic a b c t /\ c 0 = surface_point a b phi l /\ t 0 = heading_vector phi l az.
(** Every geodesic from latitude [phi1] with azimuth [az1] is, after the distance [d],
    at latitude [phi2], [lam] further east, with azimuth [az2]. *)
Definition conn (a b phi1 az1 phi2 az2 d lam : R) : Prop :=
  forall l c t, starts a b phi1 l az1 c t -> c d = surface_point a b phi2 (l + lam) /\ t d = heading_vector phi2 (l + lam) az2.

Lemma vec_eq (p q : vec3) : fst (fst p) = fst (fst q) -> snd (fst p) = snd (fst q) -> snd p = snd q -> p = q.
Proof. destruct p as [[x y] z], q as [[x' y'] z']. cbn. congruence. Qed.
Lemma heading_sc phi l az az' : sin az = sin az' -> cos az = cos az' -> heading_vector phi l az = heading_vector phi l az'.
Proof. intros A B. unfold heading_vector. rewrite A, B. reflexivity. Qed.
Lemma heading_opp phi l az : heading_vector phi l (az + PI) = vscale (-1) (heading_vector phi l az).
Proof. unfold heading_vector. rewrite neg_cos, neg_sin. apply vec_eq; cbn; ring. Qed.
Lemma surface_sc a b phi phi' l : sin phi = sin phi' -> cos phi = cos phi' -> surface_point a b phi l = surface_point a b phi' l.
Proof. intros A B. unfold surface_point. rewrite A, B. reflexivity. Qed.
Lemma lin_derive (k d s : R) : is_derive (fun x => d + k * x) s k.
Proof. auto_derive; [exact I|ring]. Qed.
Lemma vderive_scale k c s v : vderive c s v -> vderive (fun x => vscale k (c x)) s (vscale k v).
Proof.
  intros (A & B & C). destruct v as [[v1 v2] v3]. cbn [fst snd] in *. split; [|split]; cbn [vscale fst snd].
  - apply (derivable_pt_lim_ext (fun x => k * fst (fst (c x)))); [intros x; destruct (c x) as [[? ?] ?]; reflexivity|]. now apply derivable_pt_lim_scal.
  - apply (derivable_pt_lim_ext (fun x => k * snd (fst (c x)))); [intros x; destruct (c x) as [[? ?] ?]; reflexivity|]. now apply derivable_pt_lim_scal.
  - apply (derivable_pt_lim_ext (fun x => k * snd (c x))); [intros x; destruct (c x) as [[? ?] ?]; reflexivity|]. now apply derivable_pt_lim_scal.
Qed.
(** Running backwards. *)
Lemma reverse_geodesic a b c t d : unit_geodesic a b c t -> unit_geodesic a b (fun s => c (d + -1 * s)) (fun s => vscale (-1) (t (d + -1 * s))).
Proof.
  intros H s. destruct (H (d + -1 * s)) as (A & B & C & k & D). split; [exact A|]. split; [|split].
  - apply (vderive_comp c (fun s => d + -1 * s) s _ (-1) B (lin_derive (-1) d s)).
  - unfold is_unit in *. destruct (t (d + -1 * s)) as [[x y] z]. cbn in *. lra.
  - exists k. pose proof (vderive_comp t (fun s => d + -1 * s) s _ (-1) D (lin_derive (-1) d s)) as Q. apply (vderive_scale (-1)) in Q.
    rewrite !vscale_vscale in Q. replace (-1 * -1 * k) with k in Q by ring. exact Q.
Qed.
Lemma conn_reverse a b phi1 az1 phi2 az2 d lam : 0 < b -> b <= a -> conn a b phi1 az1 phi2 az2 d lam -> conn a b phi2 (az2 + PI) phi1 (az1 + PI) d (- lam).
Proof.
  intros Hb Ha H l c t (G & G0 & G1). destruct (geodesic_from a b phi1 (l - lam) az1 Hb Ha) as (c' & t' & G' & A & B).
  destruct (H (l - lam) c' t' (conj G' (conj A B))) as [P Q]. replace (l - lam + lam) with l in P, Q by ring.
  pose proof (reverse_geodesic a b c' t' d G') as Rv.
  destruct (geodesic_unique a b Hb Ha _ _ _ _ G Rv) with (s := d) as [X Y].
  - rewrite G0. replace (d + -1 * 0) with d by ring. now rewrite P.
  - rewrite G1. replace (d + -1 * 0) with d by ring. now rewrite Q, heading_opp.
  - rewrite X, Y. replace (d + -1 * d) with 0 by ring. rewrite A, B, heading_opp. split; reflexivity.
Qed.
(** Mirror images. *)
Definition mirror (e n : R) (p : vec3) : vec3 := let '(x, y, z) := p in (x, e * y, n * z).
Definition is_sign (e : R) : Prop := e = 1 \/ e = -1.
Lemma mirror_geodesic a b e n c t : is_sign e -> is_sign n -> unit_geodesic a b c t -> unit_geodesic a b (fun s => mirror e n (c s)) (fun s => mirror e n (t s)).
Proof.
  intros He Hn H s. destruct (H s) as (A & B & C & k & D). assert (e2 : e ^ 2 = 1) by (destruct He as [-> | ->]; ring). assert (n2 : n ^ 2 = 1) by (destruct Hn as [-> | ->]; ring).
  assert (M : forall c v, vderive c s v -> vderive (fun s => mirror e n (c s)) s (mirror e n v)).
  { intros c' v (X & Y & Z). destruct v as [[v1 v2] v3]. cbn [fst snd] in *. split; [|split]; cbn [mirror fst snd].
    - apply (derivable_pt_lim_ext (fun x => fst (fst (c' x)))); [intros x; destruct (c' x) as [[? ?] ?]; reflexivity|]. exact X.
    - apply (derivable_pt_lim_ext (fun x => e * snd (fst (c' x)))); [intros x; destruct (c' x) as [[? ?] ?]; reflexivity|]. now apply derivable_pt_lim_scal.
    - apply (derivable_pt_lim_ext (fun x => n * snd (c' x))); [intros x; destruct (c' x) as [[? ?] ?]; reflexivity|]. now apply derivable_pt_lim_scal. }
  split; [|split; [|split]].
  - unfold on_ellipsoid in *. destruct (c s) as [[x y] z]. cbn [mirror]. replace ((e * y) ^ 2) with (e ^ 2 * y ^ 2) by ring. replace ((n * z) ^ 2) with (n ^ 2 * z ^ 2) by ring. rewrite e2, n2, !Rmult_1_l. exact A.
  - apply M, B.
  - unfold is_unit in *. destruct (t s) as [[x y] z]. cbn [mirror vdot] in *. replace (e * y * (e * y)) with (e ^ 2 * (y * y)) by ring. replace (n * z * (n * z)) with (n ^ 2 * (z * z)) by ring. rewrite e2, n2, !Rmult_1_l. exact C.
  - exists k. replace (vscale k (gradient a b (mirror e n (c s)))) with (mirror e n (vscale k (gradient a b (c s)))); [apply M, D|].
    destruct (c s) as [[x y] z]. apply vec_eq; cbn; unfold Rdiv; ring.
Qed.
Lemma sign_sin e x : is_sign e -> sin (e * x) = e * sin x.
Proof. intros [-> | ->]; [now rewrite !Rmult_1_l|]. replace (-1 * x) with (- x) by ring. rewrite sin_neg. ring. Qed.
Lemma sign_cos e x : is_sign e -> cos (e * x) = cos x.
Proof. intros [-> | ->]; [now rewrite !Rmult_1_l|]. replace (-1 * x) with (- x) by ring. apply cos_neg. Qed.
Lemma mirror_surface a b e n phi l : is_sign e -> is_sign n -> surface_point a b (n * phi) (e * l) = mirror e n (surface_point a b phi l).
Proof.
  intros He Hn. unfold surface_point. rewrite !sign_sin, !sign_cos by assumption. replace ((b * (n * sin phi)) ^ 2) with (n ^ 2 * (b * sin phi) ^ 2) by ring.
  replace (n ^ 2) with 1 by (destruct Hn as [-> | ->]; ring). rewrite Rmult_1_l. apply vec_eq; cbn [fst snd mirror]; ring.
Qed.
Lemma mirror_heading e n phi l az az' : is_sign e -> is_sign n -> sin az' = e * sin az -> cos az' = n * cos az ->
  heading_vector (n * phi) (e * l) az' = mirror e n (heading_vector phi l az).
Proof.
  intros He Hn A B. unfold heading_vector, north_axis, east_axis. rewrite A, B, !sign_sin, !sign_cos by assumption.
  assert (e2 : e * e = 1) by (destruct He as [-> | ->]; ring). assert (n2 : n * n = 1) by (destruct Hn as [-> | ->]; ring).
  apply vec_eq; cbn [fst snd mirror vadd vscale].
  - replace (n * cos az * - (n * sin phi * cos l) + e * sin az * - (e * sin l)) with ((n * n) * (cos az * - (sin phi * cos l)) + (e * e) * (sin az * - sin l)) by ring. rewrite e2, n2. ring.
  - replace (n * cos az * - (n * sin phi * (e * sin l)) + e * sin az * cos l) with (e * ((n * n) * (cos az * - (sin phi * sin l)) + sin az * cos l)) by ring. rewrite n2. ring.
  - ring.
Qed.
Lemma mirror_mirror e n p : is_sign e -> is_sign n -> mirror e n (mirror e n p) = p.
Proof. intros [-> | ->] [-> | ->]; destruct p as [[x y] z]; apply vec_eq; cbn; ring. Qed.
Lemma conn_mirror a b e n phi1 az1 phi2 az2 az1' az2' d lam : is_sign e -> is_sign n ->
  sin az1' = e * sin az1 -> cos az1' = n * cos az1 -> sin az2' = e * sin az2 -> cos az2' = n * cos az2 ->
  conn a b phi1 az1 phi2 az2 d lam -> conn a b (n * phi1) az1' (n * phi2) az2' d (e * lam).
Proof.
  intros He Hn A1 B1 A2 B2 H l c t (G & G0 & G1).
  assert (e2 : e * (e * l) = l) by (destruct He as [-> | ->]; ring).
  destruct (H (e * l) (fun s => mirror e n (c s)) (fun s => mirror e n (t s))) as [P Q].
  - split; [now apply mirror_geodesic|]. rewrite G0, G1.
    pose proof (mirror_surface a b e n phi1 (e * l) He Hn) as X. pose proof (mirror_heading e n phi1 (e * l) az1 az1' He Hn A1 B1) as Y. rewrite e2 in X, Y.
    rewrite X, Y, !mirror_mirror by assumption. split; reflexivity.
  - rewrite <- (mirror_mirror e n (c d)), <- (mirror_mirror e n (t d)), P, Q by assumption.
    rewrite <- mirror_surface, <- (mirror_heading e n phi2 _ az2 az2') by assumption. replace (e * (e * l + lam)) with (l + e * lam) by (rewrite Rmult_plus_distr_l, e2; reflexivity). split; reflexivity.
Qed.
(** How far a nearby point and azimuth are from those of the geodesic. *)
Lemma conn_near a b phi1 az1 phi2 az2 d lam l c t d' l' : 0 < b <= a -> conn a b phi1 az1 phi2 az2 d lam -> starts a b phi1 l az1 c t ->
  vdist3 (surface_point a b phi2 l') (c d') <= a * Rabs (l' - (l + lam)) + Rabs (d - d') /\
  vdist3 (heading_vector phi2 l' az2) (t d') <= Rabs (l' - (l + lam)) + a ^ 3 / b ^ 4 * Rabs (d - d').
Proof.
  intros Hb H S. destruct (H l c t S) as [P Q]. destruct S as (G & _). split.
  - eapply Rle_trans; [apply (vdist3_triangle _ (c d))|]. apply Rplus_le_compat; [rewrite P; apply surface_close; lra|apply (pos_lip a b c t G)].
  - eapply Rle_trans; [apply (vdist3_triangle _ (t d))|]. apply Rplus_le_compat; [rewrite Q; apply heading_close|now apply (tan_lip a b c t)].
Qed.
Lemma exact_conn a f U az phi ca0 t1 sg p2 om az2 phi2 : 0 < a -> 0 <= f < 1 -> reduces f phi U -> sin U = ca0 * sin t1 -> cos az * cos U = ca0 * cos t1 -> reduces f phi2 p2 ->
  (forall l, L_vincenty4.gc_move U l az sg = unit_normal p2 (l + om)) -> (forall l, gc_tangent U l az sg = heading_vector p2 (l + om) az2) ->
  conn a (a * (1 - f)) phi az phi2 az2 (arc_dist a f ca0 t1 sg) (om + arc_turn f U az ca0 t1 sg).
Proof.
  intros Ha F R1 S1 S2 R2 M T l c t (G & G0 & G1). rewrite <- Rplus_assoc.
  exact (exact_end a f U l az phi ca0 t1 sg p2 (l + om) az2 phi2 c t Ha F G G0 G1 R1 S1 S2 R2 (M l) (T l)).
Qed.
(** The point reached on the auxiliary sphere, from its latitude and longitude; then the tangent. *)
Lemma move_at U az sg p2 om : cos U * cos sg - sin U * cos az * sin sg = cos p2 * cos om -> sin az * sin sg = cos p2 * sin om -> sin U * cos sg + cos U * cos az * sin sg = sin p2 ->
  forall l, L_vincenty4.gc_move U l az sg = unit_normal p2 (l + om).
Proof.
  intros A B C l. unfold L_vincenty4.gc_move, unit_normal, north_axis, east_axis. rewrite cos_plus, sin_plus. apply vec_eq; cbn [vadd vscale fst snd].
  - replace (cos p2 * (cos l * cos om - sin l * sin om)) with (cos l * (cos p2 * cos om) - sin l * (cos p2 * sin om)) by ring. rewrite <- A, <- B. ring.
  - replace (cos p2 * (sin l * cos om + cos l * sin om)) with (sin l * (cos p2 * cos om) + cos l * (cos p2 * sin om)) by ring. rewrite <- A, <- B. ring.
  - rewrite <- C. ring.
Qed.
Lemma tangent_at U az sg p2 om az2 : cos p2 <> 0 -> (forall l, L_vincenty4.gc_move U l az sg = unit_normal p2 (l + om)) ->
  sin az2 * cos p2 = sin az * cos U -> cos az2 * cos p2 = cos sg * (cos az * cos U) - sin sg * sin U ->
  forall l, gc_tangent U l az sg = heading_vector p2 (l + om) az2.
Proof.
  intros N M A B l. specialize (M l). set (T := gc_tangent U l az sg). set (P := L_vincenty4.gc_move U l az sg) in *.
  pose proof (sc1 U) as SU. pose proof (sc1 l) as SL. pose proof (sc1 az) as SA. pose proof (sc1 sg) as SS.
  assert (SU' : sin U ^ 2 = 1 - cos U ^ 2) by nra. assert (SL' : sin l ^ 2 = 1 - cos l ^ 2) by nra. assert (SA' : sin az ^ 2 = 1 - cos az ^ 2) by nra. assert (SS' : sin sg ^ 2 = 1 - cos sg ^ 2) by nra.
  assert (PT : vdot T P = 0) by (unfold T, P, gc_tangent, L_vincenty4.gc_move, unit_normal, north_axis, east_axis; cbn [vadd vscale vdot]; ring [SU' SL' SA' SS']).
  assert (CL : px P * py T - py P * px T = sin az * cos U) by (unfold T, P, gc_tangent, L_vincenty4.gc_move, unit_normal, north_axis, east_axis, px, py; cbn [vadd vscale fst snd]; ring [SU' SL' SA' SS']).
  assert (TZ : pz T = cos sg * (cos az * cos U) - sin sg * sin U) by (unfold T, gc_tangent, unit_normal, north_axis, east_axis, pz; cbn [vadd vscale fst snd]; ring).
  set (l2 := l + om) in *. rewrite (L_vincenty4.frame_expand p2 l2 T). rewrite M in PT. rewrite PT. unfold heading_vector.
  assert (TE : vdot T (east_axis p2 l2) = sin az2).
  { apply Rmult_eq_reg_r with (cos p2); [|exact N]. rewrite A, <- CL, M. unfold unit_normal, east_axis, px, py. destruct T as [[x y] z]. cbn. ring. }
  assert (TN : vdot T (north_axis p2 l2) = cos az2).
  { apply Rmult_eq_reg_r with (cos p2); [|exact N]. rewrite B, <- TZ. pose proof (sc1 p2) as S2. destruct T as [[x y] z]. unfold unit_normal, north_axis, pz in *. cbn in *.
    replace ((x * - (sin p2 * cos l2) + y * - (sin p2 * sin l2) + z * cos p2) * cos p2) with (z * (sin p2 * sin p2 + cos p2 * cos p2) - sin p2 * (x * (cos p2 * cos l2) + y * (cos p2 * sin l2) + z * sin p2)) by ring.
    rewrite PT, S2. ring. }
  rewrite TE, TN. apply vec_eq; cbn; ring.
Qed.
