(** Lemmas on local frames. *)
From Coq Require Import Lia Psatz.
From Verif Require Import PyMath L_PyMath M_ellipsoid M_ecef M_frames M_enu M_aer M_ned M_nwu M_sez
  M_body M_dca Spec L_ell.
Open Scope R_scope.

Lemma pair3_eq (a b c a' b' c' : R) : a = a' -> b = b' -> c = c' -> (a, b, c) = (a', b', c').
Proof. now intros -> -> ->. Qed.

(** ** ENU *)
Lemma uvw2enu_spec u v w lat lon deg :
  let phi := as_rad deg lat in let lam := as_rad deg lon in
  uvw2enu u v w lat lon deg
  = (vdot (east_axis phi lam) (u, v, w), vdot (north_axis phi lam) (u, v, w),
     vdot (up_axis phi lam) (u, v, w)).
Proof.
  cbv zeta. rewrite (as_rad_rad_in deg lat), (as_rad_rad_in deg lon). unfold uvw2enu, east_axis, north_axis, up_axis,
    unit_normal, vdot. apply pair3_eq; ring.
Qed.
Lemma enu2uvw_spec e n u lat lon deg :
  let phi := as_rad deg lat in let lam := as_rad deg lon in
  enu2uvw e n u lat lon deg
  = vadd (vscale e (east_axis phi lam))
      (vadd (vscale n (north_axis phi lam)) (vscale u (up_axis phi lam))).
Proof.
  cbv zeta. rewrite (as_rad_rad_in deg lat), (as_rad_rad_in deg lon). unfold enu2uvw, east_axis, north_axis, up_axis,
    unit_normal, vadd, vscale. apply pair3_eq; ring.
Qed.
Lemma ecef2enuv_uvw2enu u v w lat lon deg :
  ecef2enuv u v w lat lon deg = uvw2enu u v w lat lon deg.
Proof. reflexivity. Qed.
Lemma enu2ecefv_enu2uvw e n u lat lon deg :
  enu2ecefv e n u lat lon deg = enu2uvw e n u lat lon deg.
Proof. unfold enu2ecefv, enu2uvw. apply pair3_eq; ring. Qed.

Lemma enu_uvw_enu e n u lat lon deg :
  let '(x, y, z) := enu2uvw e n u lat lon deg in uvw2enu x y z lat lon deg = (e, n, u).
Proof.
  unfold enu2uvw, uvw2enu. set (p := rad_in deg lat). set (l := rad_in deg lon).
  apply pair3_eq; tring2 p l.
Qed.
Lemma uvw_enu_uvw x y z lat lon deg :
  let '(e, n, u) := uvw2enu x y z lat lon deg in enu2uvw e n u lat lon deg = (x, y, z).
Proof.
  unfold enu2uvw, uvw2enu. set (p := rad_in deg lat). set (l := rad_in deg lon).
  apply pair3_eq; tring2 p l.
Qed.
Lemma uvw2enu_dot x y z x' y' z' lat lon deg :
  vdot (uvw2enu x y z lat lon deg) (uvw2enu x' y' z' lat lon deg) = vdot (x, y, z) (x', y', z').
Proof.
  unfold uvw2enu, vdot. set (p := rad_in deg lat). set (l := rad_in deg lon). tring2 p l.
Qed.
Lemma enu2uvw_dot x y z x' y' z' lat lon deg :
  vdot (enu2uvw x y z lat lon deg) (enu2uvw x' y' z' lat lon deg) = vdot (x, y, z) (x', y', z').
Proof.
  unfold enu2uvw, vdot. set (p := rad_in deg lat). set (l := rad_in deg lon). tring2 p l.
Qed.

Lemma ecef_enu_ecef x y z lat0 lon0 h0 ell deg :
  let '(e, n, u) := ecef2enu x y z lat0 lon0 h0 ell deg in
  enu2ecef e n u lat0 lon0 h0 ell deg = (x, y, z).
Proof.
  unfold ecef2enu, enu2ecef. destruct (geodetic2ecef lat0 lon0 h0 ell deg) as [[x0 y0] z0].
  pose proof (uvw_enu_uvw (x-x0) (y-y0) (z-z0) lat0 lon0 deg) as H.
  destruct (uvw2enu _ _ _ _ _ _) as [[e n] u]. rewrite H. apply pair3_eq; ring.
Qed.
Lemma enu_ecef_enu e n u lat0 lon0 h0 ell deg :
  let '(x, y, z) := enu2ecef e n u lat0 lon0 h0 ell deg in
  ecef2enu x y z lat0 lon0 h0 ell deg = (e, n, u).
Proof.
  unfold ecef2enu, enu2ecef. destruct (geodetic2ecef lat0 lon0 h0 ell deg) as [[x0 y0] z0].
  pose proof (enu_uvw_enu e n u lat0 lon0 deg) as H.
  destruct (enu2uvw _ _ _ _ _ _) as [[a b] c].
  replace (x0 + a - x0) with a by ring. replace (y0 + b - y0) with b by ring.
  replace (z0 + c - z0) with c by ring. exact H.
Qed.
Lemma ecef2enu_dist x y z x' y' z' lat0 lon0 h0 ell deg :
  vdist3 (ecef2enu x y z lat0 lon0 h0 ell deg) (ecef2enu x' y' z' lat0 lon0 h0 ell deg)
  = vdist3 (x, y, z) (x', y', z').
Proof.
  unfold ecef2enu. destruct (geodetic2ecef lat0 lon0 h0 ell deg) as [[x0 y0] z0].
  unfold vdist3, vnorm. f_equal. unfold uvw2enu, vsub, vdot.
  set (p := rad_in deg lat0). set (l := rad_in deg lon0). tring2 p l.
Qed.

(** ** matrices *)
Ltac unmat := cbv [matvec3 matmul3 transpose3 m_at v_at tup3 sum3 smulv is_rotation sdet vdot
  vcross rotation_x rotation_y rotation_z ENU2NED ENU2SEZ ENU2NWU
  ecef2enu_rotation enu2ecef_rotation ecef2ned_rotation ned2ecef_rotation
  ecef2sez_rotation sez2ecef_rotation ecef2nwu_rotation nwu2ecef_rotation].

Lemma matvec_smulv m v : matvec3 m v = smulv m v.
Proof.
  destruct m as [[[[a b] c] [[d e] f]] [[g h] i]], v as [[x y] z].
  unmat. apply pair3_eq; ring.
Qed.
Lemma matmul_vec m m' v : matvec3 (matmul3 m m') v = matvec3 m (matvec3 m' v).
Proof.
  destruct m as [[[[a b] c] [[d e] f]] [[g h] i]], v as [[x y] z].
  destruct m' as [[[[a' b'] c'] [[d' e'] f']] [[g' h'] i']].
  unmat. apply pair3_eq; ring.
Qed.
Lemma transpose_rot_vec m v : is_rotation m -> matvec3 m (matvec3 (transpose3 m) v) = v.
Proof.
  destruct m as [[[[a b] c] [[d e] f]] [[g h] i]], v as [[x y] z].
  unmat. intros (H1 & H2 & H3 & H4 & H5 & H6 & _).
  apply pair3_eq.
  - transitivity ((a*a+b*b+c*c)*x + (a*d+b*e+c*f)*y + (a*g+b*h+c*i)*z); [ring|].
    rewrite H1, H4, H5; ring.
  - transitivity ((a*d+b*e+c*f)*x + (d*d+e*e+f*f)*y + (d*g+e*h+f*i)*z); [ring|].
    rewrite H2, H4, H6; ring.
  - transitivity ((a*g+b*h+c*i)*x + (d*g+e*h+f*i)*y + (g*g+h*h+i*i)*z); [ring|].
    rewrite H3, H5, H6; ring.
Qed.
(** For a rotation, the rows' cross products: r1 = r2 x r3 etc. *)
Lemma rot_cofactor a b c d e f g h i :
  is_rotation ((a,b,c),(d,e,f),(g,h,i)) ->
  a = e*i-f*h /\ b = f*g-d*i /\ c = d*h-e*g /\
  d = c*h-b*i /\ e = a*i-c*g /\ f = b*g-a*h /\
  g = b*f-c*e /\ h = c*d-a*f /\ i = a*e-b*d.
Proof.
  unmat. intros (H1 & H2 & H3 & H4 & H5 & H6 & H7).
  (* |r1 - r2 x r3|^2 = |r1|^2 - 2 det + |r2|^2|r3|^2 - (r2.r3)^2 = 0 *)
  assert (Z3 : forall p q r, p*p+q*q+r*r = 0 -> p = 0 /\ q = 0 /\ r = 0).
  { intros p q r H. assert (p*p = 0) by nra. assert (q*q=0) by nra. assert (r*r=0) by nra.
    repeat split; nra. }
  destruct (Z3 (a-(e*i-f*h)) (b-(f*g-d*i)) (c-(d*h-e*g))) as (A1 & A2 & A3).
  { transitivity ((a*a+b*b+c*c) - 2*(a*(e*i-f*h)+b*(f*g-d*i)+c*(d*h-e*g))
       + (d*d+e*e+f*f)*(g*g+h*h+i*i) - (d*g+e*h+f*i)*(d*g+e*h+f*i)); [ring|].
    rewrite H1, H2, H3, H6, H7. ring. }
  destruct (Z3 (d-(c*h-b*i)) (e-(a*i-c*g)) (f-(b*g-a*h))) as (A4 & A5 & A6).
  { transitivity ((d*d+e*e+f*f) - 2*(a*(e*i-f*h)+b*(f*g-d*i)+c*(d*h-e*g))
       + (a*a+b*b+c*c)*(g*g+h*h+i*i) - (a*g+b*h+c*i)*(a*g+b*h+c*i)); [ring|].
    rewrite H1, H2, H3, H5, H7. ring. }
  destruct (Z3 (g-(b*f-c*e)) (h-(c*d-a*f)) (i-(a*e-b*d))) as (A7 & A8 & A9).
  { transitivity ((g*g+h*h+i*i) - 2*(a*(e*i-f*h)+b*(f*g-d*i)+c*(d*h-e*g))
       + (a*a+b*b+c*c)*(d*d+e*e+f*f) - (a*d+b*e+c*f)*(a*d+b*e+c*f)); [ring|].
    rewrite H1, H2, H3, H4, H7. ring. }
  repeat split; lra.
Qed.
Lemma transpose_rotation m : is_rotation m -> is_rotation (transpose3 m).
Proof.
  destruct m as [[[[a b] c] [[d e] f]] [[g h] i]]. intros H.
  pose proof (rot_cofactor _ _ _ _ _ _ _ _ _ H) as (A1&A2&A3&A4&A5&A6&A7&A8&A9).
  unmat. cbv [is_rotation vdot sdet vcross] in H. destruct H as (H1 & H2 & H3 & H4 & H5 & H6 & H7).
  assert (D : a*(e*i-f*h)+b*(f*g-d*i)+c*(d*h-e*g) = 1) by exact H7.
  assert (C1 : a*a+d*d+g*g = 1).
  { transitivity (a*(e*i-f*h) + d*(c*h-b*i) + g*(b*f-c*e)).
    - rewrite <- A1, <- A4, <- A7. reflexivity. 
    - rewrite <- D. ring. }
  assert (C2 : b*b+e*e+h*h = 1).
  { transitivity (b*(f*g-d*i) + e*(a*i-c*g) + h*(c*d-a*f)).
    - rewrite <- A2, <- A5, <- A8. reflexivity.
    - rewrite <- D. ring. }
  assert (C3 : c*c+f*f+i*i = 1).
  { transitivity (c*(d*h-e*g) + f*(b*g-a*h) + i*(a*e-b*d)).
    - rewrite <- A3, <- A6, <- A9. reflexivity.
    - rewrite <- D. ring. }
  assert (C4 : a*b+d*e+g*h = 0).
  { transitivity (a*(f*g-d*i) + d*(a*i-c*g) + g*(c*d-a*f)).
    - rewrite <- A2, <- A5, <- A8. reflexivity.
    - ring. }
  assert (C5 : a*c+d*f+g*i = 0).
  { transitivity (a*(d*h-e*g) + d*(b*g-a*h) + g*(a*e-b*d)).
    - rewrite <- A3, <- A6, <- A9. reflexivity.
    - ring. }
  assert (C6 : b*c+e*f+h*i = 0).
  { transitivity (b*(d*h-e*g) + e*(b*g-a*h) + h*(a*e-b*d)).
    - rewrite <- A3, <- A6, <- A9. reflexivity.
    - ring. }
  repeat split; try assumption. rewrite <- D. ring.
Qed.
Lemma transpose_involutive m : transpose3 (transpose3 m) = m.
Proof. destruct m as [[[[a b] c] [[d e] f]] [[g h] i]]. reflexivity. Qed.
Lemma rot_transpose_vec m v : is_rotation m -> matvec3 (transpose3 m) (matvec3 m v) = v.
Proof.
  intros H. apply transpose_rotation in H. rewrite <- (transpose_involutive m) at 2.
  now apply transpose_rot_vec.
Qed.
Lemma matmul_rotation m m' : is_rotation m -> is_rotation m' -> is_rotation (matmul3 m m').
Proof.
  destruct m as [[[[a b] c] [[d e] f]] [[g h] i]].
  intros H H'. apply transpose_rotation in H' as Ht.
  destruct m' as [[[[a' b'] c'] [[d' e'] f']] [[g' h'] i']].
  cbv [is_rotation sdet vdot vcross transpose3 tup3 m_at v_at] in *.
  destruct H as (H1 & H2 & H3 & H4 & H5 & H6 & H7).
  destruct H' as (K1 & K2 & K3 & K4 & K5 & K6 & K7). clear Ht.
  assert (G : forall p q r s t u,
    (p*a'+q*d'+r*g')*(s*a'+t*d'+u*g') + (p*b'+q*e'+r*h')*(s*b'+t*e'+u*h')
    + (p*c'+q*f'+r*i')*(s*c'+t*f'+u*i') = p*s+q*t+r*u).
  { intros. transitivity (p*s*(a'*a'+b'*b'+c'*c') + q*t*(d'*d'+e'*e'+f'*f') + r*u*(g'*g'+h'*h'+i'*i')
      + (p*t+q*s)*(a'*d'+b'*e'+c'*f') + (p*u+r*s)*(a'*g'+b'*h'+c'*i')
      + (q*u+r*t)*(d'*g'+e'*h'+f'*i')); [ring|].
    rewrite K1,K2,K3,K4,K5,K6. ring. }
  unmat. repeat split; try (rewrite G; assumption).
  transitivity ((a*(e*i-f*h)+b*(f*g-d*i)+c*(d*h-e*g)) *
    (a'*(e'*i'-f'*h')+b'*(f'*g'-d'*i')+c'*(d'*h'-e'*g'))); [ring|].
  rewrite H7, K7. ring.
Qed.
Lemma rotation_x_rot t : is_rotation (rotation_x t).
Proof. unmat. repeat split; try ring; tring1 t. Qed.
Lemma rotation_y_rot t : is_rotation (rotation_y t).
Proof. unmat. repeat split; try ring; tring1 t. Qed.
Lemma rotation_z_rot t : is_rotation (rotation_z t).
Proof. unmat. repeat split; try ring; tring1 t. Qed.
Lemma ENU2NED_rot : is_rotation ENU2NED.
Proof. unmat. repeat split; ring. Qed.
Lemma ENU2SEZ_rot : is_rotation ENU2SEZ.
Proof. unmat. repeat split; ring. Qed.
Lemma ENU2NWU_rot : is_rotation ENU2NWU.
Proof. unmat. repeat split; ring. Qed.

Lemma ecef2enu_rot lat lon deg : is_rotation (ecef2enu_rotation lat lon deg).
Proof.
  unmat. set (p := rad_in deg lat). set (l := rad_in deg lon). repeat split; tring2 p l.
Qed.
Lemma ecef2ned_rot lat lon deg : is_rotation (ecef2ned_rotation lat lon deg).
Proof. apply matmul_rotation; [apply ENU2NED_rot|apply ecef2enu_rot]. Qed.
Lemma ecef2sez_rot lat lon deg : is_rotation (ecef2sez_rotation lat lon deg).
Proof. apply matmul_rotation; [apply ENU2SEZ_rot|apply ecef2enu_rot]. Qed.
Lemma ecef2nwu_rot lat lon deg : is_rotation (ecef2nwu_rotation lat lon deg).
Proof. apply matmul_rotation; [apply ENU2NWU_rot|apply ecef2enu_rot]. Qed.

Lemma enu_matrix_v u v w lat lon deg :
  matvec3 (ecef2enu_rotation lat lon deg) (u, v, w) = ecef2enuv u v w lat lon deg.
Proof. unmat. unfold ecef2enuv. apply pair3_eq; ring. Qed.
Lemma enu_matrix_inv_v e n u lat lon deg :
  matvec3 (enu2ecef_rotation lat lon deg) (e, n, u) = enu2ecefv e n u lat lon deg.
Proof. unmat. unfold enu2ecefv. apply pair3_eq; ring. Qed.
Lemma ned_matrix_v u v w lat lon deg :
  matvec3 (ecef2ned_rotation lat lon deg) (u, v, w) = ecef2nedv u v w lat lon deg.
Proof. unfold ecef2nedv, ecef2enuv. unmat. apply pair3_eq; ring. Qed.
Lemma sez_matrix_v u v w lat lon deg :
  matvec3 (ecef2sez_rotation lat lon deg) (u, v, w) = ecef2sezv u v w lat lon deg.
Proof. unfold ecef2sezv, ecef2enuv. unmat. apply pair3_eq; ring. Qed.
Lemma nwu_matrix_v u v w lat lon deg :
  matvec3 (ecef2nwu_rotation lat lon deg) (u, v, w) = ecef2nwuv u v w lat lon deg.
Proof. unfold ecef2nwuv, ecef2enuv. unmat. apply pair3_eq; ring. Qed.
Lemma sez_matrix_inv_v u v w lat lon deg :
  matvec3 (sez2ecef_rotation lat lon deg) (u, v, w) = sez2ecefv u v w lat lon deg.
Proof. unfold sez2ecefv, enu2ecefv. unmat. apply pair3_eq; ring. Qed.
Lemma nwu_matrix_inv_v u v w lat lon deg :
  matvec3 (nwu2ecef_rotation lat lon deg) (u, v, w) = nwu2ecefv u v w lat lon deg.
Proof. unfold nwu2ecefv, enu2ecefv. unmat. apply pair3_eq; ring. Qed.
Lemma ned_matrix_inv_v n e d lat lon deg :
  matvec3 (ned2ecef_rotation lat lon deg) (n, e, d) = enu2uvw e n (- d) lat lon deg.
Proof. unfold enu2uvw. unmat. apply pair3_eq; ring. Qed.

(** ** anchoring *)
Lemma ecef2enu_observer lat0 lon0 h0 ell deg :
  let '(x, y, z) := geodetic2ecef lat0 lon0 h0 ell deg in
  ecef2enu x y z lat0 lon0 h0 ell deg = (0, 0, 0).
Proof.
  unfold ecef2enu. destruct (geodetic2ecef lat0 lon0 h0 ell deg) as [[x y] z].
  unfold uvw2enu. apply pair3_eq; ring.
Qed.
Lemma geodetic2enu_vertical lat0 lon0 h h0 ell deg :
  geodetic2enu lat0 lon0 h lat0 lon0 h0 ell deg = (0, 0, h - h0).
Proof.
  unfold geodetic2enu, geodetic2ecef, uvw2enu.
  set (p := rad_in deg lat0). set (l := rad_in deg lon0).
  set (N := _ / _). set (q := _ / _). apply pair3_eq; tring2 p l.
Qed.
Lemma geodetic2enu_ecef2enu lat lon h lat0 lon0 h0 ell deg :
  geodetic2enu lat lon h lat0 lon0 h0 ell deg
  = let '(x, y, z) := geodetic2ecef lat lon h ell deg in ecef2enu x y z lat0 lon0 h0 ell deg.
Proof.
  unfold geodetic2enu, ecef2enu. destruct (geodetic2ecef lat lon h ell deg) as [[x y] z].
  destruct (geodetic2ecef lat0 lon0 h0 ell deg) as [[x0 y0] z0]. reflexivity.
Qed.
