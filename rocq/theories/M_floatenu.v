(** The local-frame functions (ecef.py, enu.py) in IEEE binary64 arithmetic.

    Same conventions as M_float.v: a finite double is a real in the format FLT(-1074, 53),
    [+], [-], [*], [/] are the exact operation followed by rounding to nearest even, overflow
    is not modelled.  The C library functions are not correctly rounded, so they are a
    parameter: a record of functions, of which the theorems assume accuracy bounds only. *)
From Coq Require Import Reals.
From Verif Require Import PyMath M_ellipsoid M_float.
Open Scope R_scope.

(** numpy.sin, cos, hypot, radians (mathfun.py:14-33) and [x ** 2] (C's pow). *)
Record libm := { l_sin : R -> R; l_cos : R -> R; l_hypot : R -> R -> R; l_sq : R -> R; l_radians : R -> R }.

Section Fl.
Variable m : libm.
Definition fl_mul (x y : R) : R := rnd (x * y).
Definition fl_div (x y : R) : R := rnd (x / y).
Definition fl_rad (deg : bool) (x : R) : R := if deg then l_radians m x else x.

(** ecef.py:73-88; the axes stored in the ellipsoid are the doubles nearest the literals of
    ellipsoid.py. *)
Definition fl_geodetic2ecef (lat lon alt : R) (ell : option Ellipsoid) (deg : bool) : vec3 :=
  let lat := fl_rad deg lat in
  let lon := fl_rad deg lon in
  let e := resolve_ellipsoid ell in
  let a := rnd (semimajor_axis e) in
  let b := rnd (semiminor_axis e) in
  let N := fl_div (l_sq m a) (l_hypot m (fl_mul a (l_cos m lat)) (fl_mul b (l_sin m lat))) in
  let x := fl_mul (fl_mul (fl_add N alt) (l_cos m lat)) (l_cos m lon) in
  let y := fl_mul (fl_mul (fl_add N alt) (l_cos m lat)) (l_sin m lon) in
  let z := fl_mul (fl_add (fl_mul N (l_sq m (fl_div b a))) alt) (l_sin m lat) in
  (x, y, z).

(** ecef.py:398-442 *)
Definition fl_uvw2enu (u v w lat0 lon0 : R) (deg : bool) : vec3 :=
  let lat0 := fl_rad deg lat0 in
  let lon0 := fl_rad deg lon0 in
  let t := fl_add (fl_mul (l_cos m lon0) u) (fl_mul (l_sin m lon0) v) in
  let East := fl_add (fl_mul (- l_sin m lon0) u) (fl_mul (l_cos m lon0) v) in
  let Up := fl_add (fl_mul (l_cos m lat0) t) (fl_mul (l_sin m lat0) w) in
  let North := fl_add (fl_mul (- l_sin m lat0) t) (fl_mul (l_cos m lat0) w) in
  (East, North, Up).

(** ecef.py:298-341 *)
Definition fl_ecef2enu (x y z lat0 lon0 h0 : R) (ell : option Ellipsoid) (deg : bool) : vec3 :=
  let '(x0, y0, z0) := fl_geodetic2ecef lat0 lon0 h0 ell deg in
  fl_uvw2enu (fl_sub x x0) (fl_sub y y0) (fl_sub z z0) lat0 lon0 deg.

(** ecef.py:344-395 *)
Definition fl_enu2uvw (east north up lat0 lon0 : R) (deg : bool) : vec3 :=
  let lat0 := fl_rad deg lat0 in
  let lon0 := fl_rad deg lon0 in
  let t := fl_sub (fl_mul (l_cos m lat0) up) (fl_mul (l_sin m lat0) north) in
  let w := fl_add (fl_mul (l_sin m lat0) up) (fl_mul (l_cos m lat0) north) in
  let u := fl_sub (fl_mul (l_cos m lon0) t) (fl_mul (l_sin m lon0) east) in
  let v := fl_add (fl_mul (l_sin m lon0) t) (fl_mul (l_cos m lon0) east) in
  (u, v, w).

(** ecef.py:555-602 *)
Definition fl_enu2ecef (e1 n1 u1 lat0 lon0 h0 : R) (ell : option Ellipsoid) (deg : bool) : vec3 :=
  let '(x0, y0, z0) := fl_geodetic2ecef lat0 lon0 h0 ell deg in
  let '(u, v, w) := fl_enu2uvw e1 n1 u1 lat0 lon0 deg in
  (fl_add x0 u, fl_add y0 v, fl_add z0 w).

(** enu.py:163-206 *)
Definition fl_geodetic2enu (lat lon h lat0 lon0 h0 : R) (ell : option Ellipsoid) (deg : bool) : vec3 :=
  let '(x1, y1, z1) := fl_geodetic2ecef lat lon h ell deg in
  let '(x2, y2, z2) := fl_geodetic2ecef lat0 lon0 h0 ell deg in
  fl_uvw2enu (fl_sub x1 x2) (fl_sub y1 y2) (fl_sub z1 z2) lat0 lon0 deg.

(** enu.py:78-112 *)
Definition fl_aer2enu (az el srange : R) (deg : bool) : vec3 :=
  let el := fl_rad deg el in
  let az := fl_rad deg az in
  let r := fl_mul srange (l_cos m el) in
  (fl_mul r (l_sin m az), fl_mul r (l_cos m az), fl_mul srange (l_sin m el)).

(** enu.py:54-62: values smaller than 1e-3 in magnitude become 0. *)
Definition fl_trim (v : R) : R := if Rlt_dec (Rabs v) (rnd (1 / 1000)) then 0 else v.
(** enu.py:64-69: the slant range returned by enu2aer (the two angles are not modelled). *)
Definition fl_enu2range (e n u : R) : R :=
  let e := fl_trim e in
  let n := fl_trim n in
  let u := fl_trim u in
  let r := l_hypot m e n in
  l_hypot m r u.
(** aer.py:73-116: the slant range returned by geodetic2aer. *)
Definition fl_geodetic2range (lat lon h lat0 lon0 h0 : R) (ell : option Ellipsoid) (deg : bool) : R :=
  let '(e, n, u) := fl_geodetic2enu lat lon h lat0 lon0 h0 ell deg in fl_enu2range e n u.

(** aer.py:291-346 *)
Definition fl_aer2ecef (az el srange lat0 lon0 alt0 : R) (ell : option Ellipsoid) (deg : bool) : vec3 :=
  let '(x0, y0, z0) := fl_geodetic2ecef lat0 lon0 alt0 ell deg in
  let '(e1, n1, u1) := fl_aer2enu az el srange deg in
  let '(dx, dy, dz) := fl_enu2uvw e1 n1 u1 lat0 lon0 deg in
  (fl_add x0 dx, fl_add y0 dy, fl_add z0 dz).

(** ned.py:136-179 *)
Definition fl_ned2ecef (n e d lat0 lon0 h0 : R) (ell : option Ellipsoid) (deg : bool) : vec3 :=
  fl_enu2ecef e n (- d) lat0 lon0 h0 ell deg.
(** ned.py:182-227 *)
Definition fl_ecef2ned (x y z lat0 lon0 h0 : R) (ell : option Ellipsoid) (deg : bool) : vec3 :=
  let '(e, n, u) := fl_ecef2enu x y z lat0 lon0 h0 ell deg in (n, e, - u).
End Fl.
