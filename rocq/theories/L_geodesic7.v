(** The end of an arc of a geodesic, exactly. *)
From Coq Require Import Reals Lra Lia Psatz.
From Verif Require Import PyMath L_PyMath Spec Spec_geodesic L_karney3 L_series1 L_series3 L_geodesic1 L_geodesic2 L_geodesic3 L_geodesic4.
Open Scope R_scope.

(** [U] is the reduced latitude of the geodetic latitude [phi]. *)
Definition reduces (f phi U : R) : Prop := exists h, 0 < h /\ sin U * h = (1 - f) * sin phi /\ cos U * h = cos phi.
Lemma reduces_u f phi U u : 0 <= f < 1 -> reduces f phi U -> 0 < u -> u ^ 2 = 1 - f * (2 - f) * (1 - sin U ^ 2) -> sin U = u * sin phi /\ (1 - f) * cos U = u * cos phi.
Proof.
  intros F (h & Hh & A & B) Hu Q. pose proof (sc1 phi) as S. pose proof (sc1 U) as S'. assert (E : u * h = 1 - f).
  { apply Rsqr_inj; [nra|lra|]. rewrite !Rsqr_pow2. replace ((u * h) ^ 2) with (u ^ 2 * h ^ 2) by ring. rewrite Q.
    assert (sin U ^ 2 * h ^ 2 = (1 - f) ^ 2 * sin phi ^ 2) by (rewrite <- !Rpow_mult_distr, A; reflexivity).
    assert (cos U ^ 2 * h ^ 2 = cos phi ^ 2) by (rewrite <- !Rpow_mult_distr, B; reflexivity). assert (h ^ 2 = (sin U * sin U + cos U * cos U) * h ^ 2) by (rewrite S'; ring). nra. }
  split; apply Rmult_eq_reg_r with h; try lra.
  - rewrite A, <- E. ring.
  - replace ((1 - f) * cos U * h) with ((1 - f) * (cos U * h)) by ring. rewrite B, <- E. ring.
Qed.
Section End'.
Variables (a f U l az phi ca0 t1 sg p2 l2 az2 phi2 : R) (c t : R -> vec3).
Hypothesis Ha : 0 < a.
Hypothesis F : 0 <= f < 1.
Let b := a * (1 - f).
Hypothesis G : unit_geodesic a b c t.
Hypothesis G0 : c 0 = surface_point a b phi l.
Hypothesis G1 : t 0 = heading_vector phi l az.
Hypothesis R1 : reduces f phi U.
Hypothesis S1 : sin U = ca0 * sin t1.
Hypothesis S2 : cos az * cos U = ca0 * cos t1.
Hypothesis R2 : reduces f phi2 p2.
Hypothesis M : L_vincenty4.gc_move U l az sg = unit_normal p2 l2.
Hypothesis T : gc_tangent U l az sg = heading_vector p2 l2 az2.
Let k2 := ca0 ^ 2 * (f * (2 - f) / (1 - f) ^ 2).
Definition arc_dist : R := a * (1 - f) * (dexact (ca0 ^ 2 * (f * (2 - f) / (1 - f) ^ 2)) (t1 + sg) - dexact (ca0 ^ 2 * (f * (2 - f) / (1 - f) ^ 2)) t1).
Definition arc_turn : R := - (f * (sin az * cos U) * (lexact f (ca0 ^ 2 * (f * (2 - f) / (1 - f) ^ 2)) (t1 + sg) - lexact f (ca0 ^ 2 * (f * (2 - f) / (1 - f) ^ 2)) t1)).
Theorem exact_end : c arc_dist = surface_point a b phi2 (l2 + arc_turn) /\ t arc_dist = heading_vector phi2 (l2 + arc_turn) az2.
Proof.
  pose (x1 := cos U * cos l). pose (y1 := cos U * sin l). pose (z1 := sin U).
  pose (x2 := cos az * - (sin U * cos l) + sin az * - sin l). pose (y2 := cos az * - (sin U * sin l) + sin az * cos l). pose (z2 := cos az * cos U + sin az * 0).
  pose proof (sc1 l) as SL. pose proof (sc1 U) as SU. pose proof (sc1 az) as SA. assert (SL' : sin l ^ 2 = 1 - cos l ^ 2) by nra. assert (SU' : sin U ^ 2 = 1 - cos U ^ 2) by nra. assert (SA' : sin az ^ 2 = 1 - cos az ^ 2) by nra.
  assert (U1 : x1 ^ 2 + y1 ^ 2 + z1 ^ 2 = 1) by (unfold x1, y1, z1; ring [SL' SU' SA']).
  assert (U2 : x2 ^ 2 + y2 ^ 2 + z2 ^ 2 = 1) by (unfold x2, y2, z2; ring [SL' SU' SA']).
  assert (U12 : x1 * x2 + y1 * y2 + z1 * z2 = 0) by (unfold x1, y1, z1, x2, y2, z2; ring [SL' SU' SA']).
  assert (HZ1 : z1 = ca0 * sin t1) by exact S1.
  assert (HZ2 : z2 = ca0 * cos t1) by (rewrite <- S2; unfold z2; ring).
  assert (S0 : c_s0 x1 y1 x2 y2 = sin az * cos U) by (unfold c_s0, x1, y1, x2, y2; ring [SL' SU' SA']).
  pose proof (geodesic_exists a f x1 y1 z1 x2 y2 z2 ca0 t1 Ha F U1 U2 U12 HZ1 HZ2) as GE.
  set (hh := ex_h a f ca0 t1 Ha F) in GE. pose proof (ex_h_len a f ca0 t1 Ha F) as HL. fold hh in HL.
  set (pos := c_pos a f x1 y1 z1 x2 y2 z2 ca0 t1) in *. set (tn := c_tan f x1 y1 z1 x2 y2 z2 ca0 t1) in *. set (len := c_len a f ca0 t1) in *.
  assert (H0 : hh 0 = 0) by (rewrite <- (c_len_0 a f ca0 t1) at 1; apply HL).
  assert (AT0 : pos 0 = surface_point a b phi l /\ tn 0 = heading_vector phi l az).
  { pose proof (at_frame a f x1 y1 z1 x2 y2 z2 ca0 t1 Ha F U1 U2 U12 HZ1 HZ2 0 U l az phi) as AF. cbv zeta in AF. fold pos tn in AF. fold b in AF.
    assert (TH0 : c_th f x1 y1 x2 y2 ca0 t1 0 = 0) by (unfold c_th; rewrite Rplus_0_r; ring). rewrite TH0, Rplus_0_r in AF.
    pose proof (c_u_pos f ca0 t1 F 0) as P1. pose proof (c_u_sq f z1 z2 ca0 t1 F HZ1 HZ2 0) as Q2. replace (c_Z z1 z2 0) with (sin U) in Q2 by (unfold c_Z; rewrite cos_0, sin_0; unfold z1; ring).
    destruct (reduces_u f phi U (c_u f ca0 t1 0) F R1 ltac:(lra) Q2) as [X1 X2].
    apply AF; [| |symmetry; exact X1|symmetry; exact X2].
    - unfold c_X, c_Y, c_Z, unit_normal. rewrite cos_0, sin_0. unfold x1, y1, z1. apply f_equal2; [apply f_equal2|]; ring.
    - unfold c_X', c_Y', c_Z', heading_vector, north_axis, east_axis, vadd, vscale. rewrite cos_0, sin_0. unfold x2, y2, z2. apply f_equal2; [apply f_equal2|]; ring. }
  destruct AT0 as [P0 T0]. assert (Bp : 0 < b <= a) by (unfold b; clear - Ha F; split; [apply Rmult_lt_0_compat; lra|pose proof (Rmult_le_pos a f ltac:(lra) ltac:(lra)); nra]).
  assert (UQ : forall s, c s = pos (hh s) /\ t s = tn (hh s)).
  { intros s. apply (geodesic_unique a b (proj1 Bp) (proj2 Bp) c t (fun s => pos (hh s)) (fun s => tn (hh s)) G GE); cbv beta; rewrite H0; [rewrite P0; exact G0|rewrite T0; exact G1]. }
  change arc_dist with (len sg). destruct (UQ (len sg)) as [UP UT]. rewrite HL in UP, UT. rewrite UP, UT.
  pose proof (at_frame a f x1 y1 z1 x2 y2 z2 ca0 t1 Ha F U1 U2 U12 HZ1 HZ2 sg p2 l2 az2 phi2) as AF. cbv zeta in AF. fold pos tn in AF. fold b in AF.
  assert (TH : c_th f x1 y1 x2 y2 ca0 t1 sg = arc_turn) by (unfold c_th, arc_turn; rewrite S0; reflexivity). rewrite TH in AF.
  assert (GX : L_vincenty4.gc_move U l az sg = (c_X x1 x2 sg, c_Y y1 y2 sg, c_Z z1 z2 sg)).
  { unfold L_vincenty4.gc_move, c_X, c_Y, c_Z, x1, x2, y1, y2, z1, z2, unit_normal, north_axis, east_axis, vadd, vscale. apply f_equal2; [apply f_equal2|]; ring. }
  assert (GV : gc_tangent U l az sg = (c_X' x1 x2 sg, c_Y' y1 y2 sg, c_Z' z1 z2 sg)).
  { unfold gc_tangent, c_X', c_Y', c_Z', x1, x2, y1, y2, z1, z2, unit_normal, north_axis, east_axis, vadd, vscale. apply f_equal2; [apply f_equal2|]; ring. }
  pose proof (c_u_pos f ca0 t1 F sg) as P1. pose proof (c_u_sq f z1 z2 ca0 t1 F HZ1 HZ2 sg) as Q2.
  assert (EZ : c_Z z1 z2 sg = sin p2) by (pose proof M as M'; rewrite GX in M'; unfold unit_normal in M'; congruence). rewrite EZ in Q2.
  destruct (reduces_u f phi2 p2 (c_u f ca0 t1 sg) F R2 ltac:(lra) Q2) as [X1 X2].
  apply AF; [rewrite <- GX; exact M|rewrite <- GV; exact T|symmetry; exact X1|symmetry; exact X2].
Qed.
End End'.
