(** Model of src/pymap3d/sez.py *)
From Verif Require Import PyMath M_ellipsoid M_ecef M_enu M_frames.
Open Scope R_scope.

(** sez.py:24-30 *)
Definition aer2sez (az elev slantRange : R) (deg : bool) : vec3 :=
  let '(e, n, u) := aer2enu az elev slantRange deg in (- n, e, u).
(** sez.py:33-38 *)
Definition sez2aer (s e z : R) (deg : bool) : vec3 := enu2aer e (- s) z deg.
(** sez.py:41-55 *)
Definition sez2geodetic (s e z lat0 lon0 h0 : R) (ell : option Ellipsoid) (deg : bool) : vec3 :=
  enu2geodetic e (- s) z lat0 lon0 h0 ell deg.
(** sez.py:58-72 *)
Definition sez2ecef (s e z lat0 lon0 h0 : R) (ell : option Ellipsoid) (deg : bool) : vec3 :=
  enu2ecef e (- s) z lat0 lon0 h0 ell deg.
(** sez.py:75-80 *)
Definition sez2ecefv (s e z lat0 lon0 : R) (deg : bool) : vec3 :=
  enu2ecefv e (- s) z lat0 lon0 deg.
(** sez.py:83-98 *)
Definition ecef2sez (x y z lat0 lon0 h0 : R) (ell : option Ellipsoid) (deg : bool) : vec3 :=
  let '(e, n, u) := ecef2enu x y z lat0 lon0 h0 ell deg in (- n, e, u).
(** sez.py:101-107 *)
Definition ecef2sezv (x y z lat0 lon0 : R) (deg : bool) : vec3 :=
  let '(e, n, u) := ecef2enuv x y z lat0 lon0 deg in (- n, e, u).
(** sez.py:110-125 *)
Definition geodetic2sez (lat lon h lat0 lon0 h0 : R) (ell : option Ellipsoid) (deg : bool) : vec3 :=
  let '(e, n, u) := geodetic2enu lat lon h lat0 lon0 h0 ell deg in (- n, e, u).
(** sez.py:128-141 *)
Definition ecef2sez_matrix := ecef2sez_rotation.
Definition sez2ecef_matrix := sez2ecef_rotation.
