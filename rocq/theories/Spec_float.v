(** Specification for the theorems about binary64 rounding (C92, C93). *)
From Coq Require Import Reals.
From Verif Require Import PyMath M_ellipsoid Spec M_float M_floatenu M_floatgeo.
Open Scope R_scope.

(** Half an ulp of 1. *)
Definition uu : R := / 9007199254740992.
(** What is assumed of the C library (u = 2^-53): sine and cosine within 4u (absolute) for
    arguments up to 7, hypot and the square within 4u and 2u (relative) away from underflow
    and overflow, radians within 3u (relative, plus an underflow term); results are doubles, and
    hypot(0, 0) is 0. *)
Definition libm_ok (m : libm) : Prop :=
  (forall x, double x -> Rabs x <= 7 -> Rabs (l_sin m x - sin x) <= 4 * uu) /\
  (forall x, double x -> Rabs x <= 7 -> Rabs (l_cos m x - cos x) <= 4 * uu) /\
  (forall x y, double x -> double y -> / 10 ^ 200 <= hypot x y <= 10 ^ 200 ->
     Rabs (l_hypot m x y - hypot x y) <= 4 * uu * hypot x y) /\
  (forall x, double x -> / 10 ^ 100 <= Rabs x <= 10 ^ 100 -> Rabs (l_sq m x - x ^ 2) <= 2 * uu * x ^ 2) /\
  (forall x, double x -> Rabs x <= 360 -> Rabs (l_radians m x - radians x) <= 3 * uu * Rabs (radians x) + / 10 ^ 300) /\
  (forall x, double (l_sin m x)) /\ (forall x, double (l_cos m x)) /\ (forall x y, double (l_hypot m x y)) /\
  (forall x, double (l_sq m x)) /\ (forall x, double (l_radians m x)) /\ l_hypot m 0 0 = 0.
(** Ellipsoids at most a tenth flatter than a sphere: every entry of the table (C88). *)
Definition axes_ok (ell : option Ellipsoid) : Prop :=
  1 <= ell_a ell <= 10 ^ 30 /\ 9 / 10 * ell_a ell <= ell_b ell <= ell_a ell.
(** Largest distance from the centre at altitude |h|, rounded up. *)
Definition reach (ell : option Ellipsoid) (h : R) : R := 10 / 9 * ell_a ell + Rabs h.
Definition site_ok (lat lon h : R) (deg : bool) : Prop :=
  double lat /\ double lon /\ double h /\ Rabs lat <= quarter deg /\ Rabs lon <= full deg.

(** The further functions used by ecef2geodetic: sine, cosine and tangent (below a quarter
    turn) within 4u of the result plus an underflow term, arctangent within 4u and below a
    quarter turn, atan2 within 8u, degrees within 3u relative plus an underflow term; the
    square of 0 is 0; hypot also for small results, with an underflow term; results are
    doubles. *)
Definition libm2_ok (k : libm2) : Prop :=
  libm_ok (l_base k) /\
  (forall x, double x -> Rabs x <= 7 -> Rabs (l_sin (l_base k) x - sin x) <= 4 * uu * Rabs (sin x) + / 10 ^ 300) /\
  (forall x, double x -> Rabs x <= 7 -> Rabs (l_cos (l_base k) x - cos x) <= 4 * uu * Rabs (cos x) + / 10 ^ 300) /\
  (forall x, double x -> Rabs x < PI / 2 -> Rabs (l_tan k x - tan x) <= 4 * uu * Rabs (tan x) + / 10 ^ 300) /\
  (forall x, double x -> Rabs x <= 10 ^ 200 -> Rabs (l_atan k x - atan x) <= 4 * uu) /\
  (forall x, double x -> Rabs (l_atan k x) < PI / 2) /\
  (forall x y, double x -> double y -> Rabs (l_atan2 k y x - atan2 y x) <= 8 * uu) /\
  (forall x, double x -> Rabs x <= 7 -> Rabs (l_degrees k x - degrees x) <= 3 * uu * Rabs (degrees x) + / 10 ^ 300) /\
  l_sq (l_base k) 0 = 0 /\
  (forall x, double (l_tan k x)) /\ (forall x, double (l_atan k x)) /\ (forall x y, double (l_atan2 k x y)) /\ (forall x, double (l_degrees k x)) /\
  (forall x y, double x -> double y -> hypot x y <= 10 ^ 200 ->
     Rabs (l_hypot (l_base k) x y - hypot x y) <= 4 * uu * hypot x y + / 10 ^ 300).
(** A sphere, or flatter than a sphere by more than rounding. *)
Definition flat_ok (ell : option Ellipsoid) : Prop :=
  ell_a ell = ell_b ell \/ ell_b ell <= (1 - / 10 ^ 9) * ell_a ell.
(** A coordinate that is zero or not absurdly small. *)
Definition far (v : R) : Prop := v = 0 \/ / 10 ^ 80 <= Rabs v.
(** Points at least 0.85 a from the centre, not on the polar axis ([C93_polar_axis]). *)
Definition point_ok (ell : option Ellipsoid) (x y z : R) : Prop :=
  double x /\ double y /\ double z /\ far x /\ far y /\ far z /\
  85 / 100 * ell_a ell <= vnorm (x, y, z) <= 10 ^ 40 /\ (x <> 0 \/ y <> 0).
(** What the inside test compares with 1. *)
Definition quadric (ell : option Ellipsoid) (x y z : R) : R :=
  x ^ 2 / ell_a ell ^ 2 + y ^ 2 / ell_a ell ^ 2 + z ^ 2 / ell_b ell ^ 2.
