(** Round trips of ecef2geodetic o geodetic2ecef. *)
From Coq Require Import Lia Psatz.
From Verif Require Import PyMath L_PyMath M_ellipsoid M_ecef Spec L_ell L_ecef L_ecef2geo.
Open Scope R_scope.

Section RT.
Variable e : Ellipsoid.
Hypothesis He : valid_ell e.
Let a := semimajor_axis e.
Let b := semiminor_axis e.
Let E := you_E e.
Let Hb : 0 < b. Proof. apply He. Qed.
Let Ha : b <= a. Proof. apply He. Qed.

(** Inside test for a point at height h over the surface. *)
Lemma inside_height x y z c s h :
  let w := hypot (a * c) (b * s) in
  0 < w -> c ^ 2 + s ^ 2 = 1 ->
  x ^ 2 + y ^ 2 = ((a ^ 2 / w + h) * c) ^ 2 -> z = (b ^ 2 / w + h) * s ->
  x ^ 2 / a ^ 2 + y ^ 2 / a ^ 2 + z ^ 2 / b ^ 2
  = 1 + h * (2 / w + h * (c ^ 2 / a ^ 2 + s ^ 2 / b ^ 2)).
Proof.
  intros w Hw Hcs HR Hz. pose proof Hb as Hb'. pose proof Ha as Ha'.
  pose proof (hypot_pow2 (a * c) (b * s)) as Hw2. fold w in Hw2.
  transitivity ((x ^ 2 + y ^ 2) / a ^ 2 + z ^ 2 / b ^ 2); [field; split; lra|].
  rewrite HR, Hz.
  transitivity (((a * c) ^ 2 + (b * s) ^ 2) / w ^ 2 + 2 * h / w * (c ^ 2 + s ^ 2)
     + h ^ 2 * (c ^ 2 / a ^ 2 + s ^ 2 / b ^ 2)).
  - field. repeat split; lra.
  - rewrite <- Hw2, Hcs. field. repeat split; lra.
Qed.

Lemma core x y z p h :
  let w := hypot (a * cos p) (b * sin p) in
  - PI/2 < p < PI/2 ->
  hypot x y = (a ^ 2 / w + h) * cos p -> z = (b ^ 2 / w + h) * sin p ->
  0 <= h \/ (h < 0 /\ 0 < 2 / w + h * (cos p ^ 2 / a ^ 2 + sin p ^ 2 / b ^ 2)) ->
  beta_scalar e x y z = atan (b / a * tan p) ->
  lat_scalar e (beta_scalar e x y z) = p /\
  alt_of_beta e x y z (beta_scalar e x y z) (cos (beta_scalar e x y z)) = h.
Proof.
  intros w Hp HR Hz Hh HB. rewrite HB.
  pose proof Hb as Hb'. pose proof Ha as Ha'.
  destruct (reduced_cs e He p Hp) as [Hc Hs]. fold a b w in Hc, Hs.
  pose proof (acbs_pos a b p Hb' Ha') as Hw. fold w in Hw.
  split.
  - unfold lat_scalar. pose proof (cos_atan_pos (b / a * tan p)).
    destruct (Req_EM_T _ 0); [lra|]. now apply lat_of_reduced.
  - assert (Hins := inside_height x y z (cos p) (sin p) h).
    cbv zeta in Hins. fold w in Hins.
    specialize (Hins Hw ltac:(pose proof (sin_pow2 p); lra)).
    specialize (Hins ltac:(rewrite <- HR; symmetry; apply hypot_pow2) Hz).
    assert (Hy : hypot (z - b * sin (atan (b / a * tan p)))
                       (hypot x y - a * cos (atan (b / a * tan p))) = Rabs h).
    { rewrite HR, Hz, Hc, Hs.
      replace ((b ^ 2 / w + h) * sin p - b * (b * sin p / w)) with (h * sin p) by (field; lra).
      replace ((a ^ 2 / w + h) * cos p - a * (a * cos p / w)) with (h * cos p) by (field; lra).
      apply hypot_uniq; [apply Rabs_pos|].
      rewrite <- Rabs_mult, Rabs_right by nra. tring1 p. }
    unfold alt_of_beta, inside_dec. fold a b. rewrite Hy, Hins.
    destruct Hh as [Hh|[Hh1 Hh2]].
    + destruct (Rlt_dec _ 1) as [Hlt|Hge].
      * exfalso. assert (0 <= cos p ^ 2 / a ^ 2 + sin p ^ 2 / b ^ 2).
        { apply Rplus_le_le_0_compat; (apply Rmult_le_pos;
          [apply sq_nonneg | left; apply Rinv_0_lt_compat; apply pow_lt; lra]). }
        assert (0 < 2 / w) by (apply Rdiv_lt_0_compat; lra). nra.
      * rewrite Rabs_right; lra.
    + destruct (Rlt_dec _ 1) as [Hlt|Hge].
      * rewrite Rabs_left; lra.
      * exfalso. nra.
Qed.

(** Surface: u = b. *)
Lemma u_surface x y z :
  x ^ 2 / a ^ 2 + y ^ 2 / a ^ 2 + z ^ 2 / b ^ 2 = 1 -> you_u e x y z = b.
Proof.
  intros Hs. pose proof Hb as Hb'. pose proof Ha as Ha'.
  assert (HR : x ^ 2 + y ^ 2 = a ^ 2 - a ^ 2 * z ^ 2 / b ^ 2).
  { apply Rmult_eq_reg_r with (/ a ^ 2).
    - transitivity (x ^ 2 / a ^ 2 + y ^ 2 / a ^ 2); [field; lra|].
      transitivity (1 - z ^ 2 / b ^ 2); [lra|field; split; lra].
    - apply Rinv_neq_0_compat, pow_nonzero. lra. }
  pose proof (E_sq e He) as HE. fold a b E in HE.
  apply u_char; try assumption; try lra; fold E; rewrite HR, HE.
  - field. lra.
  - assert (Hz0 : 0 <= (a ^ 2 - b ^ 2) * (z ^ 2 / b ^ 2)).
    { apply Rmult_le_pos; [nra|]. apply Rmult_le_pos; [apply sq_nonneg|].
      left; apply Rinv_0_lt_compat, pow_lt; lra. }
    replace (a ^ 2 - a ^ 2 * z ^ 2 / b ^ 2 + z ^ 2 - (a ^ 2 - b ^ 2))
      with (b ^ 2 - (a ^ 2 - b ^ 2) * (z ^ 2 / b ^ 2)) by (field; lra).
    pose proof (sq_nonneg b). lra.
Qed.
Lemma huE_surface : hypot b E = a.
Proof.
  pose proof Hb as Hb'. pose proof Ha as Ha'. apply hypot_uniq; [lra|].
  pose proof (E_sq e He) as HE. fold a b E in HE. rewrite HE. ring.
Qed.

Lemma beta_surface x y z p :
  let w := hypot (a * cos p) (b * sin p) in
  - PI/2 < p < PI/2 ->
  hypot x y = a ^ 2 / w * cos p -> z = b ^ 2 / w * sin p ->
  beta_scalar e x y z = atan (b / a * tan p).
Proof.
  intros w Hp HR Hz. pose proof Hb as Hb'. pose proof Ha as Ha'.
  pose proof (acbs_pos a b p Hb' Ha') as Hw. fold w in Hw.
  assert (Hc : 0 < cos p) by (apply cos_gt_0; lra).
  assert (Hu : you_u e x y z = b).
  { apply u_surface.
    assert (Hins := inside_height x y z (cos p) (sin p) 0).
    cbv zeta in Hins. fold w in Hins. rewrite Hins; try assumption.
    - ring.
    - pose proof (sin_pow2 p); lra.
    - rewrite Rplus_0_r, <- HR. symmetry. apply hypot_pow2.
    - rewrite Rplus_0_r. assumption. }
  assert (Hh : 0 < hypot x y).
  { rewrite HR. apply Rmult_lt_0_compat; [|assumption].
    apply Rdiv_lt_0_compat; [apply pow_lt|]; lra. }
  unfold beta_scalar. rewrite Hu.
  destruct (Req_EM_T b 0); [lra|]. destruct (Req_EM_T (hypot x y) 0); [lra|].
  destruct (you_beta_form e He x y z) as (k & _ & -> & Hk); [lra|lra|].
  assert (k = 0) as ->.
  { apply Hk. rewrite Hu. fold E. rewrite huE_surface. fold a b.
    pose proof (E_sq e He) as HE. fold a b E in HE. rewrite HE. ring. }
  unfold beta0. rewrite Hu. fold E. rewrite huE_surface.
  rewrite Rmult_0_l, Rminus_0_r. f_equal. rewrite HR, Hz. unfold tan.
  field. repeat split; lra.
Qed.

(** Sphere *)
Lemma beta_sphere x y z p r : a = b ->
  - PI/2 < p < PI/2 -> 0 < r ->
  hypot x y = r * cos p -> z = r * sin p ->
  beta_scalar e x y z = atan (b / a * tan p).
Proof.
  intros Hab Hp Hr HR Hz. pose proof Hb as Hb'.
  assert (Hc : 0 < cos p) by (apply cos_gt_0; lra).
  assert (HE0 : E = 0).
  { unfold E, you_E. fold a b. rewrite Hab, Rminus_diag_eq by reflexivity. apply sqrt_0. }
  assert (Hu : you_u e x y z = r).
  { pose proof (hypot_pow2 x y) as Hh. rewrite HR in Hh.
    assert (Hr2 : x ^ 2 + y ^ 2 + z ^ 2 = r ^ 2).
    { rewrite <- Hh, Hz. tring1 p. }
    apply u_char; try assumption; try lra; fold E; rewrite HE0, Hr2.
    - ring.
    - pose proof (sq_nonneg r). lra. }
  assert (Hh : 0 < hypot x y) by (rewrite HR; nra).
  assert (Hru : hypot r E = r).
  { rewrite HE0, hypot_x0, Rabs_right; lra. }
  unfold beta_scalar. rewrite Hu.
  destruct (Req_EM_T r 0); [lra|]. destruct (Req_EM_T (hypot x y) 0); [lra|].
  destruct (you_beta_form e He x y z) as (k & _ & -> & Hk); [lra|lra|].
  assert (k = 0) as ->.
  { apply Hk. rewrite Hu. fold E. rewrite Hru. fold a b. rewrite HE0, Hab. ring. }
  unfold beta0. rewrite Hu. fold E. rewrite Hru.
  rewrite Rmult_0_l, Rminus_0_r. f_equal. rewrite HR, Hz, Hab. unfold tan.
  field. repeat split; lra.
Qed.

(** Equatorial plane *)
Lemma beta_equator x y : beta_scalar e x y 0 = 0.
Proof.
  unfold beta_scalar. rewrite isclose0_0.
  destruct (Req_EM_T _ 0); [reflexivity|]. destruct (Req_EM_T _ 0); [reflexivity|].
  unfold you_beta.
  replace (hypot (you_u e x y 0) (you_E e) / you_u e x y 0 * 0 / hypot x y) with 0
    by (unfold Rdiv; ring).
  rewrite atan_0, sin_0. unfold Rdiv. ring.
Qed.

(** Polar axis *)
Lemma beta_pole z : 1 / 100000000 < Rabs z ->
  beta_scalar e 0 0 z = if Rlt_dec 0 z then PI / 2 else - PI / 2.
Proof.
  intros Hz. unfold beta_scalar. rewrite (isclose0_big z Hz), hypot_00.
  destruct (Req_EM_T (you_u e 0 0 z) 0); [reflexivity|].
  destruct (Req_EM_T 0 0); [reflexivity|lra].
Qed.
End RT.

Lemma deg_out_as_rad d x : deg_out d (as_rad d x) = x.
Proof. rewrite as_rad_rad_in. apply deg_out_rad_in. Qed.

(** x,y of geodetic2ecef in polar form *)
Lemma lon_back r l deg : 0 < r -> - half deg < l <= half deg ->
  deg_out deg (atan2 (r * sin (as_rad deg l)) (r * cos (as_rad deg l))) = l.
Proof.
  intros Hr Hl. rewrite atan2_polar; [apply deg_out_as_rad|assumption|].
  now apply half_rad.
Qed.

Lemma Nphi_pos a b p : 0 < b -> b <= a -> 0 < a ^ 2 / hypot (a * cos p) (b * sin p).
Proof.
  intros. apply Rdiv_lt_0_compat; [apply pow_lt; lra|]. now apply acbs_pos.
Qed.

Ltac setup_rt ell Hok :=
  let a := fresh "a" in let b := fresh "b" in
  destruct (ell_pos ell Hok) as [Hb Ha];
  pose proof (resolve_valid ell Hok) as He;
  pose proof (resolve_a ell) as Ra; pose proof (resolve_b ell) as Rb;
  rewrite (g2e_unfold ell Hok); cbv zeta beta iota.

(** General assembly of the round trip from beta. *)
Lemma assemble ell lat lon h deg :
  ell_ok ell -> - quarter deg < lat < quarter deg -> - half deg < lon <= half deg ->
  let p := as_rad deg lat in
  let w := hypot (ell_a ell * cos p) (ell_b ell * sin p) in
  0 < ell_a ell ^ 2 / w + h ->
  0 <= h \/ (h < 0 /\ 0 < 2 / w + h * (cos p ^ 2 / ell_a ell ^ 2 + sin p ^ 2 / ell_b ell ^ 2)) ->
  (let '(x, y, z) := geodetic2ecef lat lon h ell deg in
   hypot x y = (ell_a ell ^ 2 / w + h) * cos p -> z = (ell_b ell ^ 2 / w + h) * sin p ->
   beta_scalar (resolve_ellipsoid ell) x y z = atan (ell_b ell / ell_a ell * tan p)) ->
  let '(x, y, z) := geodetic2ecef lat lon h ell deg in
  ecef2geodetic x y z ell deg = (lat, lon, h).
Proof.
  intros Hok Hlat Hlon p w HN Hh Hbeta.
  destruct (ell_pos ell Hok) as [Hb Ha].
  pose proof (resolve_valid ell Hok) as He.
  pose proof (resolve_a ell) as Ra. pose proof (resolve_b ell) as Rb.
  rewrite (g2e_unfold ell Hok) in *. cbv zeta beta iota in *. fold p w in Hbeta |- *.
  pose proof (quarter_rad deg lat Hlat) as Hp. fold p in Hp.
  assert (Hc : 0 < cos p) by (apply cos_gt_0; lra).
  set (l := as_rad deg lon) in *.
  set (x := (ell_a ell ^ 2 / w + h) * cos p * cos l) in *.
  set (y := (ell_a ell ^ 2 / w + h) * cos p * sin l) in *.
  set (z := (ell_b ell ^ 2 / w + h) * sin p) in *.
  assert (HR : hypot x y = (ell_a ell ^ 2 / w + h) * cos p).
  { apply hypot_polar. nra. }
  specialize (Hbeta HR eq_refl).
  destruct (core (resolve_ellipsoid ell) He x y z p h) as [H1 H2];
    rewrite ?Ra, ?Rb; try assumption; try reflexivity.
  unfold ecef2geodetic. cbv zeta. rewrite H1, H2.
  unfold p at 1. rewrite deg_out_as_rad. f_equal. f_equal.
  unfold x, y, l. apply lon_back; [nra|assumption].
Qed.

Lemma roundtrip_surface ell lat lon deg :
  ell_ok ell -> - quarter deg < lat < quarter deg -> - half deg < lon <= half deg ->
  let '(x, y, z) := geodetic2ecef lat lon 0 ell deg in
  ecef2geodetic x y z ell deg = (lat, lon, 0).
Proof.
  intros Hok Hlat Hlon. destruct (ell_pos ell Hok) as [Hb Ha].
  apply assemble; try assumption; try lra.
  - rewrite Rplus_0_r. now apply Nphi_pos.
  - destruct (geodetic2ecef lat lon 0 ell deg) as [[x y] z] eqn:HG. intros HR Hz.
    pose proof (beta_surface (resolve_ellipsoid ell) (resolve_valid ell Hok) x y z (as_rad deg lat)) as B.
    cbv zeta in B. rewrite resolve_a, resolve_b in B.
    apply B; [now apply quarter_rad| |]; rewrite Rplus_0_r in *; assumption.
Qed.

Lemma roundtrip_sphere ell lat lon h deg :
  ell_ok ell -> ell_a ell = ell_b ell -> - ell_a ell < h ->
  - quarter deg < lat < quarter deg -> - half deg < lon <= half deg ->
  let '(x, y, z) := geodetic2ecef lat lon h ell deg in
  ecef2geodetic x y z ell deg = (lat, lon, h).
Proof.
  intros Hok Hab Hh Hlat Hlon. destruct (ell_pos ell Hok) as [Hb Ha].
  set (p := as_rad deg lat).
  assert (Hw : hypot (ell_a ell * cos p) (ell_b ell * sin p) = ell_a ell).
  { rewrite <- Hab. apply hypot_polar. lra. }
  assert (HN : ell_a ell ^ 2 / ell_a ell = ell_a ell) by (field; lra).
  apply assemble; try assumption; fold p; rewrite Hw.
  - rewrite HN. lra.
  - destruct (Rle_lt_dec 0 h) as [H0|H0]; [now left|right]. split; [assumption|].
    rewrite <- Hab. replace (cos p ^ 2 / ell_a ell ^ 2 + sin p ^ 2 / ell_a ell ^ 2)
      with (1 / ell_a ell ^ 2).
    + replace (2 / ell_a ell + h * (1 / ell_a ell ^ 2)) with ((2 * ell_a ell + h) / ell_a ell ^ 2)
        by (field; lra).
      apply Rdiv_lt_0_compat; [lra|apply pow_lt; lra].
    + pose proof (sin_pow2 p) as Hs. rewrite Hs. field. lra.
  - destruct (geodetic2ecef lat lon h ell deg) as [[x y] z] eqn:HG. intros HR Hz.
    pose proof (beta_sphere (resolve_ellipsoid ell) (resolve_valid ell Hok) x y z p (ell_a ell + h)) as B.
    rewrite resolve_a, resolve_b in B. rewrite <- Hab in Hz. rewrite HN in *.
    apply B; try assumption; try lra. now apply quarter_rad.
Qed.

Lemma roundtrip_equator ell lon h deg :
  ell_ok ell -> - ell_a ell < h -> - half deg < lon <= half deg ->
  let '(x, y, z) := geodetic2ecef 0 lon h ell deg in
  ecef2geodetic x y z ell deg = (0, lon, h).
Proof.
  intros Hok Hh Hlon. destruct (ell_pos ell Hok) as [Hb Ha].
  assert (Hp0 : as_rad deg 0 = 0) by (destruct deg; unfold as_rad; lra).
  assert (Hw : hypot (ell_a ell * cos 0) (ell_b ell * sin 0) = ell_a ell).
  { rewrite cos_0, sin_0, Rmult_0_r, hypot_x0, Rabs_right; lra. }
  assert (HN : ell_a ell ^ 2 / ell_a ell = ell_a ell) by (field; lra).
  assert (Hq : - quarter deg < 0 < quarter deg).
  { destruct deg; unfold quarter; pose proof PI_RGT_0; lra. }
  apply assemble; try assumption; rewrite Hp0, Hw.
  - rewrite HN. lra.
  - destruct (Rle_lt_dec 0 h) as [H0|H0]; [now left|right]. split; [assumption|].
    rewrite cos_0, sin_0.
    replace (2 / ell_a ell + h * (1 ^ 2 / ell_a ell ^ 2 + 0 ^ 2 / ell_b ell ^ 2))
      with ((2 * ell_a ell + h) / ell_a ell ^ 2) by (field; lra).
    apply Rdiv_lt_0_compat; [lra|apply pow_lt; lra].
  - destruct (geodetic2ecef 0 lon h ell deg) as [[x y] z]. intros HR Hz.
    rewrite sin_0, Rmult_0_r in Hz. subst z. rewrite beta_equator.
    rewrite tan_0, Rmult_0_r, atan_0. reflexivity.
Qed.

(** The poles: the longitude reported is 0. *)
Lemma roundtrip_pole ell lon h deg (south : bool) :
  ell_ok ell -> 1 / 100000000 < ell_b ell + h ->
  let lat := (if south then - quarter deg else quarter deg) in
  let '(x, y, z) := geodetic2ecef lat lon h ell deg in
  ecef2geodetic x y z ell deg = (lat, 0, h).
Proof.
  intros Hok Hh lat. destruct (ell_pos ell Hok) as [Hb Ha].
  pose proof (resolve_a ell) as Ra. pose proof (resolve_b ell) as Rb.
  set (sg := if south then -1 else 1).
  assert (Hsg : sg * sg = 1) by (unfold sg; destruct south; ring).
  assert (Hp : as_rad deg lat = sg * (PI / 2)).
  { unfold lat, sg, as_rad, quarter. destruct south, deg; lra. }
  assert (Hcos : cos (sg * (PI/2)) = 0).
  { unfold sg. destruct south; [|rewrite Rmult_1_l; apply cos_PI2].
    replace (-1 * (PI/2)) with (- (PI/2)) by ring. rewrite cos_neg. apply cos_PI2. }
  assert (Hsin : sin (sg * (PI/2)) = sg).
  { unfold sg. destruct south; [|rewrite Rmult_1_l; apply sin_PI2].
    replace (-1 * (PI/2)) with (- (PI/2)) by ring. rewrite sin_neg, sin_PI2. ring. }
  rewrite (g2e_unfold ell Hok). cbv zeta beta iota.
  rewrite Hp, Hcos, Hsin.
  assert (Hw : hypot (ell_a ell * 0) (ell_b ell * sg) = ell_b ell).
  { apply hypot_uniq; [lra|].
    replace ((ell_a ell * 0) ^ 2 + (ell_b ell * sg) ^ 2) with (ell_b ell * ell_b ell * (sg * sg)) by ring.
    rewrite Hsg. ring. }
  rewrite Hw.
  replace ((ell_a ell ^ 2 / ell_b ell + h) * 0 * cos (as_rad deg lon)) with 0 by ring.
  replace ((ell_a ell ^ 2 / ell_b ell + h) * 0 * sin (as_rad deg lon)) with 0 by ring.
  replace ((ell_b ell ^ 2 / ell_b ell + h) * sg) with ((ell_b ell + h) * sg) by (field; lra).
  set (z := (ell_b ell + h) * sg).
  assert (Hz : 1 / 100000000 < Rabs z).
  { unfold z, sg. destruct south.
    - rewrite Rabs_left; lra.
    - rewrite Rabs_right; lra. }
  unfold ecef2geodetic. cbv zeta.
  rewrite (beta_pole (resolve_ellipsoid ell) z Hz).
  assert (HB : (if Rlt_dec 0 z then PI / 2 else - PI / 2) = sg * (PI/2)).
  { unfold z, sg. destruct south, (Rlt_dec _ _); lra. }
  rewrite HB. unfold lat_scalar. rewrite Hcos, Hsin.
  destruct (Req_EM_T 0 0) as [_|?]; [|lra].
  rewrite atan2_00.
  assert (Hs1 : sign sg = sg).
  { unfold sign, sg. destruct south; repeat destruct (Rlt_dec _ _); lra. }
  rewrite Hs1.
  f_equal; [f_equal|].
  - rewrite Rmult_comm, <- Hp. apply deg_out_as_rad.
  - destruct deg; [apply degrees_0|reflexivity].
  - unfold alt_of_beta. rewrite Hsin, hypot_00, Ra, Rb.
    replace (z - ell_b ell * sg) with (h * sg) by (unfold z; ring).
    replace (0 - ell_a ell * 0) with 0 by ring.
    rewrite hypot_x0, Rabs_mult.
    assert (Rabs sg = 1) as -> by (unfold sg; destruct south; [rewrite Rabs_left|rewrite Rabs_right]; lra).
    rewrite Rmult_1_r. unfold inside_dec. rewrite Ra, Rb.
    replace (0 ^ 2 / ell_a ell ^ 2 + 0 ^ 2 / ell_a ell ^ 2 + z ^ 2 / ell_b ell ^ 2)
      with ((ell_b ell + h) ^ 2 / ell_b ell ^ 2).
    2:{ unfold z. replace (((ell_b ell + h) * sg) ^ 2) with ((ell_b ell + h) ^ 2 * (sg * sg)) by ring.
        rewrite Hsg. field. lra. }
    assert (Hpos : 0 < ell_b ell ^ 2) by (apply pow_lt; lra).
    destruct (Rlt_dec _ 1) as [Hlt|Hge].
    + rewrite Rabs_left; [ring|].
      apply (Rmult_lt_compat_r (ell_b ell ^ 2)) in Hlt; [|assumption].
      unfold Rdiv in Hlt. rewrite Rmult_assoc, Rinv_l in Hlt by lra. nra.
    + rewrite Rabs_right; [ring|].
      apply Rnot_lt_le in Hge. apply (Rmult_le_compat_r (ell_b ell ^ 2)) in Hge; [|lra].
      unfold Rdiv in Hge. rewrite Rmult_assoc, Rinv_l in Hge by lra. nra.
Qed.
