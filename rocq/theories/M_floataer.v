(** Look angles and the positions computed from them (enu.py, aer.py, ned.py) in IEEE
    binary64 arithmetic; conventions of M_float.v, M_floatenu.v and M_floatgeo.v. *)
From Coq Require Import Reals.
From Verif Require Import PyMath M_ellipsoid M_float M_floatenu M_floatgeo.
Open Scope R_scope.

Section Fl.
Variable k : libm2.
Let m := l_base k.
(** enu.py:25-76, Python float arguments; math.tau is the double nearest 2 pi. *)
Definition fl_enu2aer (e n u : R) (deg : bool) : vec3 :=
  let e := fl_trim e in
  let n := fl_trim n in
  let u := fl_trim u in
  let r := l_hypot m e n in
  let slantRange := l_hypot m r u in
  let elev := l_atan2 k u r in
  let az := fl_mod (l_atan2 k e n) (rnd (2 * PI)) in
  (if deg then l_degrees k az else az, if deg then l_degrees k elev else elev, slantRange).
(** aer.py:71-116 *)
Definition fl_geodetic2aer (lat lon h lat0 lon0 h0 : R) (ell : option Ellipsoid) (deg : bool) : vec3 :=
  let '(e, n, u) := fl_geodetic2enu m lat lon h lat0 lon0 h0 ell deg in fl_enu2aer e n u deg.
(** aer.py:21-68 *)
Definition fl_ecef2aer (x y z lat0 lon0 h0 : R) (ell : option Ellipsoid) (deg : bool) : vec3 :=
  let '(e, n, u) := fl_ecef2enu m x y z lat0 lon0 h0 ell deg in fl_enu2aer e n u deg.
(** aer.py:119-166 *)
Definition fl_aer2geodetic (az el srange lat0 lon0 h0 : R) (ell : option Ellipsoid) (deg : bool) : vec3 :=
  let '(x, y, z) := fl_aer2ecef m az el srange lat0 lon0 h0 ell deg in
  fl_ecef2geodetic k x y z ell deg.
(** enu.py:115-160 *)
Definition fl_enu2geodetic (e n u lat0 lon0 h0 : R) (ell : option Ellipsoid) (deg : bool) : vec3 :=
  let '(x, y, z) := fl_enu2ecef m e n u lat0 lon0 h0 ell deg in
  fl_ecef2geodetic k x y z ell deg.
(** ned.py:88-133 *)
Definition fl_ned2geodetic (n e d lat0 lon0 h0 : R) (ell : option Ellipsoid) (deg : bool) : vec3 :=
  let '(x, y, z) := fl_enu2ecef m e n (- d) lat0 lon0 h0 ell deg in
  fl_ecef2geodetic k x y z ell deg.
End Fl.
