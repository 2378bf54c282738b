(** geodetic2eci, aer2eci, eci2geodetic and eci2aer in IEEE binary64 arithmetic; conventions of M_float.v and M_floateci.v. *)
From Coq Require Import Reals ZArith.
From Verif Require Import PyMath M_time M_ellipsoid M_frames M_earth M_float M_floatenu M_floattime M_floatsid M_floatgeo M_floataer M_floateci.
Open Scope R_scope.

Section Fl.
Variable m : libm.
Variables sq cube : R -> R.
Variable sum : R -> R -> R -> R.
(** ecef.py:500-552, scalar arguments; line 552 drops the Earth orientation arguments. *)
Definition fl_geodetic2eci (lat lon alt : R) (t : datetime) (ell : option Ellipsoid) (deg : bool) (delta_ut1 xp yp : R) : result vec3 :=
  let '(x, y, z) := fl_geodetic2ecef m lat lon alt ell deg in
  fl_ecef2eci m sq cube sum x y z t 0 0 0.
(** aer.py:228-288, scalar arguments *)
Definition fl_aer2eci (az el srange lat0 lon0 h0 : R) (t : datetime) (ell : option Ellipsoid) (deg : bool) (delta_ut1 xp yp : R) : result vec3 :=
  let '(x, y, z) := fl_aer2ecef m az el srange lat0 lon0 h0 ell deg in
  fl_ecef2eci m sq cube sum x y z t delta_ut1 xp yp.
(** ecef.py:445-497, scalar arguments *)
Definition fl_eci2geodetic (lk : libm2) (x y z : R) (t : datetime) (ell : option Ellipsoid) (deg : bool) (delta_ut1 xp yp : R) : result vec3 :=
  bind (fl_eci2ecef m sq cube sum x y z t delta_ut1 xp yp) (fun '(xecef, yecef, zecef) =>
  Ok (fl_ecef2geodetic lk xecef yecef zecef ell deg)).
(** aer.py:169-225, scalar arguments *)
Definition fl_eci2aer (lk : libm2) (x y z lat0 lon0 h0 : R) (t : datetime) (deg : bool) (delta_ut1 xp yp : R) : result vec3 :=
  bind (fl_eci2ecef m sq cube sum x y z t delta_ut1 xp yp) (fun '(xe, ye, ze) =>
  Ok (fl_ecef2aer lk xe ye ze lat0 lon0 h0 None deg)).
End Fl.
